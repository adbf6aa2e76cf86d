(** C30: breaking the loops of the input graph (sampo/userinput/parser/general_build.py). *)
From Coq Require Import ZArith List Bool Arith Lia Relations.
From Verif Require Import TopoModel LoopModel LoopProofs.
Import ListNotations.

(** ** Specification *)
(** A weighted graph as a relation: there is a link from one work to another with a weight
    (None counts as 1). *)
Definition links := nat -> nat -> option Z -> Prop.
Definition weight (w : option Z) : Z := match w with None => 1%Z | Some z => z end.
Definition joined (L : links) (u v : nat) : Prop := exists w, L u v w.
Definition acyclic (L : links) : Prop := forall v, ~ clos_trans nat (joined L) v v.
Definition consecutive (c : list nat) (u v : nat) : Prop := exists l1 l2, c = l1 ++ u :: v :: l2.
(** a closed walk that meets no work twice *)
Definition cycle_of (L : links) (c : list nat) : Prop :=
  (exists x mid, c = x :: mid ++ [x] /\ NoDup (x :: mid)) /\
  forall u v, consecutive c u v -> joined L u v.
(** One of the links from [u] to [v] is lightest on the cycle. *)
Definition lightest (L : links) (c : list nat) (u v : nat) : Prop :=
  consecutive c u v /\
  exists w, L u v w /\ forall a b w', consecutive c a b -> L a b w' -> (weight w <= weight w')%Z.
(** [L'] arises from [L] by breaking the cycles [cs] one after the other, each at a lightest
    pair of works, and nothing else. *)
Inductive broken : links -> list (list nat) -> links -> Prop :=
  | broken_done L L' : (forall u v w, L u v w <-> L' u v w) -> broken L [] L'
  | broken_step L c u v L1 cs L' :
      cycle_of L c -> lightest L c u v ->
      (forall u' v' w, L1 u' v' w <-> L u' v' w /\ ~ (u' = u /\ v' = v)) ->
      broken L1 cs L' -> broken L (c :: cs) L'.

(** the links of the model's dictionary *)
Definition links_of (g : wgraph) : links := fun u v w => In (v, w) (wget g u).

(** ** Proofs *)
Lemma ordered_acyclic g F : ordered (wget g) F -> incl (nodes_of g) F -> acyclic (links_of g).
Proof.
  intros Ho Hi.
  assert (Hin : forall u v, joined (links_of g) u v -> In u F).
  { intros u v (w & H). apply Hi, nodes_of_in. left. eapply wget_haskey; eauto. }
  assert (Hstep : forall F u v, ordered (wget g) F -> In u F -> joined (links_of g) u v ->
             forall F1 F2, F = F1 ++ u :: F2 -> In v F2).
  { clear. intros F u v Ho Hin (w & Hl) F1 F2 ->. clear Hin. induction F1 as [|x F1 IH]; cbn in Ho.
    - destruct Ho as [H _]. apply H. unfold nbr. apply in_map_iff. exists (v, w); auto.
    - apply IH. apply Ho. }
  assert (Htr : forall u v, clos_trans nat (joined (links_of g)) u v -> forall F1 F2, F = F1 ++ u :: F2 -> In v F2).
  { induction 1 as [u v H|u v w H1 IH1 H2 IH2]; intros F1 F2 E.
    - apply (Hstep F u v Ho (Hin u v H) H F1 F2 E).
    - pose proof (IH1 F1 F2 E) as Hv. apply in_split in Hv. destruct Hv as (A & B & ->).
      assert (In w B) by (apply (IH2 (F1 ++ u :: A) B); rewrite E, <- app_assoc; reflexivity).
      apply in_app_iff. right; now right. }
  intros v Hv.
  assert (HvF : In v F).
  { clear -Hv Hin. remember v as u eqn:E in Hv at 2. clear E. induction Hv; eauto. }
  apply in_split in HvF. destruct HvF as (F1 & F2 & E).
  assert (Hnd : NoDup F).
  { clear -Ho. induction F as [|x F IH]; constructor; cbn in Ho; destruct Ho as (_ & N & Ho); auto. }
  specialize (Htr v v Hv F1 F2 E). rewrite E in Hnd. apply NoDup_remove_2 in Hnd. apply Hnd, in_app_iff. now right.
Qed.

Lemma consecutive_cons x c u v : consecutive c u v -> consecutive (x :: c) u v.
Proof. intros (l1 & l2 & ->). exists (x :: l1), l2. reflexivity. Qed.
Lemma rlinked_consecutive g path : rlinked (wget g) path -> forall u v, consecutive (rev path) u v -> joined (links_of g) u v.
Proof.
  intros H u v (l1 & l2 & E). apply (f_equal (@rev nat)) in E. rewrite rev_involutive in E.
  rewrite rev_app_distr in E. cbn in E. rewrite <- !app_assoc in E. cbn in E. subst.
  induction (rev l2) as [|y l IH]; cbn in H.
  - destruct H as [H _]. unfold linked, nbr in H. apply in_map_iff in H. destruct H as ([b w] & <- & H). exists w; exact H.
  - apply IH. destruct l; cbn in *; tauto.
Qed.
Lemma cut_correct x r : In x r -> NoDup r -> exists mid pre, rev (x :: r) = pre ++ (x :: mid ++ [x]) /\
  cut_to (last (rev (x :: r)) 0) (rev (x :: r)) = x :: mid ++ [x] /\ NoDup (x :: mid).
Proof.
  intros Hin Hnd. cbn. rewrite last_last. apply in_rev in Hin. apply NoDup_rev in Hnd.
  apply in_split in Hin. destruct Hin as (pre & mid & E). rewrite E in *. exists mid, pre.
  rewrite <- app_assoc. cbn. split; [reflexivity|].
  assert (N : ~ In x pre) by (intros C; apply NoDup_remove_2 in Hnd; apply Hnd, in_app_iff; auto).
  split.
  - clear -N. induction pre as [|y pre IH]; cbn.
    + now rewrite Nat.eqb_refl.
    + destruct (Nat.eqb_spec y x); [subst; exfalso; apply N; now left|]. apply IH. intros C; apply N; now right.
  - clear -Hnd. induction pre; cbn in Hnd; auto. inversion Hnd; auto.
Qed.

Lemma best_link_correct u v l : forall best,
  match best_link u v l best with
  | None => best = None /\ forall w, ~ In (v, w) l
  | Some (z, e) =>
      (best = Some (z, e) \/ e = (u, v) /\ exists w, In (v, w) l /\ weight w = z) /\
      (forall w, In (v, w) l -> (z <= weight w)%Z) /\ (forall z' e', best = Some (z', e') -> (z <= z')%Z)
  end.
Proof.
  induction l as [|[n w] l IH]; intros best; cbn [best_link].
  - destruct best as [[z e]|].
    + repeat split; auto. intros w []. intros z' e' E. injection E as <- <-. lia.
    + split; auto.
  - match goal with |- context[best_link u v l ?b] => set (best' := b) end. specialize (IH best').
    assert (Hb : (n = v /\ best' = Some (weight w, (u, v)) /\ (forall z' e', best = Some (z', e') -> (weight w <= z')%Z)) \/
                 (best' = best /\ (n = v -> exists z' e', best = Some (z', e') /\ (z' < weight w)%Z))).
    { unfold best'. destruct (Nat.eqb_spec n v); cbn.
      - destruct best as [[b e0]|].
        + destruct (Z.leb_spec (weight_of w) b).
          * left. repeat split; auto. intros z' e' E. injection E as <- <-. auto.
          * right. split; auto. intros _. exists b, e0. auto.
        + left. repeat split; auto. discriminate.
      - right. split; auto. congruence. }
    destruct (best_link u v l best') as [[z e]|].
    + destruct IH as (I1 & I2 & I3). destruct Hb as [(-> & Hb & Hle)|(Hb & Hlt)].
      * repeat split.
        -- right. rewrite Hb in I1. destruct I1 as [E|[E (w1 & Hw & Ew)]].
           ++ injection E as <- <-. split; auto. exists w. split; [now left|reflexivity].
           ++ split; auto. exists w1. split; [now right|auto].
        -- intros w1 [E|Hw]; [injection E as <-; apply (I3 _ _ Hb)|auto].
        -- intros z' e' E. specialize (I3 _ _ Hb). specialize (Hle _ _ E). lia.
      * rewrite Hb in *. repeat split; auto.
        -- destruct I1 as [E|[E (w1 & Hw & Ew)]]; auto. right. split; auto. exists w1. split; [now right|auto].
        -- intros w1 [E|Hw]; auto. injection E as -> ->.
           destruct (Hlt eq_refl) as (z' & e' & Eb & Hlt'). specialize (I3 _ _ Eb). lia.
    + destruct IH as (I1 & I2). destruct Hb as [(-> & Hb & _)|(Hb & Hlt)]; [congruence|].
      split; [congruence|]. intros w1 [E|Hw]; [|eapply I2; eauto].
      injection E as -> ->. destruct (Hlt eq_refl) as (z' & e' & Eb & _). congruence.
Qed.
Lemma best_edge_correct g cycle : forall best,
  match best_edge g cycle best with
  | None => best = None /\ forall u v, consecutive cycle u v -> ~ joined (links_of g) u v
  | Some (z, (u, v)) =>
      (best = Some (z, (u, v)) \/ consecutive cycle u v /\ exists w, links_of g u v w /\ weight w = z) /\
      (forall a b w, consecutive cycle a b -> links_of g a b w -> (z <= weight w)%Z) /\
      (forall z' e', best = Some (z', e') -> (z <= z')%Z)
  end.
Proof.
  induction cycle as [|u cycle IH]; intros best; cbn [best_edge].
  - destruct best as [[z [u v]]|].
    + repeat split; auto. intros a b w (l1 & l2 & E). destruct l1; discriminate.
      intros z' e' E; injection E as <- <-; lia.
    + split; auto. intros a b (l1 & l2 & E). destruct l1; discriminate.
  - destruct cycle as [|v cycle].
    + destruct best as [[z [a b]]|].
      * repeat split; auto. intros a' b' w (l1 & l2 & E). destruct l1 as [|? [|]]; discriminate.
        intros z' e' E; injection E as <- <-; lia.
      * split; auto. intros a b (l1 & l2 & E). destruct l1 as [|? [|]]; discriminate.
    + set (best' := best_link u v (wget g u) best). specialize (IH best').
      pose proof (best_link_correct u v (wget g u) best) as Hb. fold best' in Hb.
      assert (Hcons : forall a b, consecutive (u :: v :: cycle) a b -> (a = u /\ b = v) \/ consecutive (v :: cycle) a b).
      { intros a b (l1 & l2 & E). destruct l1 as [|y l1]; cbn in E.
        - injection E as <- <- _. auto.
        - injection E as _ E. right. exists l1, l2. auto. }
      destruct (best_edge g (v :: cycle) best') as [[z [a b]]|].
      * destruct IH as (I1 & I2 & I3). repeat split.
        -- destruct I1 as [E|[C Hw]].
           ++ rewrite E in Hb. destruct Hb as ([Eb|[Ee (w & Hw & Ew)]] & _ & _); auto.
              injection Ee as -> ->. right. split. { exists [], cycle; reflexivity. } exists w. split; auto.
           ++ right. split; auto. now apply consecutive_cons.
        -- intros a' b' w C Hw. destruct (Hcons _ _ C) as [[-> ->]|C']; [|eauto].
           destruct best' as [[z1 e1]|]; [|destruct Hb as [_ Hb]; exfalso; eapply Hb; exact Hw].
           destruct Hb as (_ & Hb & _). specialize (Hb _ Hw). specialize (I3 _ _ eq_refl). lia.
        -- intros z' e' E. destruct best' as [[z1 e1]|]; [|destruct Hb; congruence].
           destruct Hb as (_ & _ & Hb). specialize (Hb _ _ E). specialize (I3 _ _ eq_refl). lia.
      * destruct IH as (I1 & I2). rewrite I1 in Hb. destruct Hb as [Hb1 Hb2]. split; auto.
        intros a b C (w & Hw). destruct (Hcons _ _ C) as [[-> ->]|C']; [eapply Hb2; exact Hw|].
        apply (I2 a b C'). exists w; auto.
Qed.

Lemma cycle_joined_lightest g c : cycle_of (links_of g) c -> NoDup (map fst g) ->
  exists g' u v, eliminate_cycle g c = Some g' /\ lightest (links_of g) c u v /\
    (forall u' v' w, links_of g' u' v' w <-> links_of g u' v' w /\ ~ (u' = u /\ v' = v)) /\
    NoDup (map fst g') /\ link_count g' < link_count g.
Proof.
  intros [(x & mid & -> & Hnd) Hj] Hk. unfold eliminate_cycle.
  pose proof (best_edge_correct g (x :: mid ++ [x]) None) as Hb.
  destruct (best_edge g (x :: mid ++ [x]) None) as [[z [u v]]|].
  - destruct Hb as ([C|[C (w & Hw & Ew)]] & H2 & _); [discriminate|].
    assert (Hu : In u (map fst g)) by (eapply wget_haskey; exact Hw).
    eexists _, u, v. split; [reflexivity|]. split.
    { split; auto. exists w. split; auto. intros a b w' Hc Hl. rewrite Ew. eauto. }
    split.
    { intros u' v' w'. unfold links_of. rewrite wset_get by auto. destruct (Nat.eqb_spec u' u).
      - subst. rewrite filter_In. cbn. rewrite negb_true_iff, Nat.eqb_neq. tauto.
      - tauto. }
    split. { now rewrite wset_keys. }
    pose proof (wset_count g u (filter (fun e => negb (Nat.eqb (fst e) v)) (wget g u)) Hk Hu) as Hc.
    assert (Hlt : length (filter (fun e => negb (Nat.eqb (fst e) v)) (wget g u)) < length (wget g u)).
    { unfold links_of in Hw. clear -Hw. induction (wget g u) as [|[n y] l IH]; [contradiction|].
      cbn. destruct Hw as [E|Hw].
      - injection E as -> ->. rewrite Nat.eqb_refl. cbn.
        pose proof (filter_le (fun e : nat * option Z => negb (Nat.eqb (fst e) v)) l). lia.
      - specialize (IH Hw). destruct (negb (Nat.eqb n v)); cbn; lia. }
    lia.
  - destruct Hb as [_ Hb]. exfalso.
    assert (Hc : exists u v, consecutive (x :: mid ++ [x]) u v).
    { destruct mid as [|y mid]; [exists x, x|exists x, y]; exists []; eexists; reflexivity. }
    destruct Hc as (u & v & Hc). apply (Hb u v Hc), Hj, Hc.
Qed.

Lemma broken_ext L1 L2 cs L' : (forall u v w, L1 u v w <-> L2 u v w) -> broken L2 cs L' -> broken L1 cs L'.
Proof.
  intros E H. inversion H as [? ? E'|? c u v L1' cs' ? Hc Hl H1 H2]; subst.
  - constructor. intros. now rewrite E.
  - assert (Hj : forall a b, joined L1 a b <-> joined L2 a b).
    { intros a b. split; intros (w & Hw); exists w; now apply E. }
    apply broken_step with (u := u) (v := v) (L1 := L1'); auto.
    + destruct Hc as [Hc1 Hc2]. split; auto. intros a b Hab. apply Hj. auto.
    + destruct Hl as [Hl1 (w & Hw & Hmin)]. split; auto. exists w. split; [now apply E|].
      intros a b w' Hab Hw'. apply (Hmin a b); auto. now apply E.
    + intros. rewrite H1, E. tauto.
Qed.

Lemma acyclic_sub (L L' : links) : (forall u v w, L' u v w -> L u v w) -> acyclic L -> acyclic L'.
Proof.
  intros H Ha v Hv. apply (Ha v). clear Ha.
  assert (Hg : forall a b, clos_trans nat (joined L') a b -> clos_trans nat (joined L) a b); auto.
  clear v Hv. induction 1 as [a b (w & Hw)|a b c H1 IH1 H2 IH2]; [apply t_step; exists w; auto|].
  exact (t_trans _ _ _ _ _ IH1 IH2).
Qed.
Lemma eliminate_loop_correct : forall fuel g cycles, NoDup (map fst g) -> link_count g <= fuel ->
  exists g' cs, eliminate_loop fuel g cycles = Some (g', cycles ++ cs) /\ NoDup (map fst g') /\
    broken (links_of g) cs (links_of g') /\ acyclic (links_of g').
Proof.
  induction fuel as [|f IH]; intros g cycles Hnd Hf;
    destruct (find_cycle_correct g Hnd) as (r & Er & Hr).
  all: destruct r as [g'|g' path].
  1,3: cbn [eliminate_loop]; rewrite Er; destruct Hr as (R1 & R2 & R3 & F & K1 & K2);
    exists g', []; rewrite app_nil_r; repeat split; auto;
    [apply broken_done; intros; unfold links_of; rewrite R1; reflexivity|];
    apply acyclic_sub with (L := links_of g); [intros u v w; unfold links_of; now rewrite R1|now apply ordered_acyclic with F].
  all: destruct Hr as (R1 & R2 & R3 & x & r & -> & X1 & X2 & X3);
    destruct (cut_correct x r X1 X2) as (mid & pre & E1 & E2 & E3).
  all: assert (Hc : cycle_of (links_of g') (x :: mid ++ [x]))
    by (split; [exists x, mid; auto|]; intros u v (l1 & l2 & El);
        destruct (rlinked_consecutive g (x :: r) X3 u v) as (w & Hw);
        [exists (pre ++ l1), l2; rewrite E1, El, <- app_assoc; reflexivity|];
        exists w; unfold links_of in *; now rewrite R1).
  all: destruct (cycle_joined_lightest g' _ Hc R2) as (g2 & u & v & G1 & G2 & G3 & G4 & G5).
  - exfalso. lia.
  - cbn [eliminate_loop]. rewrite Er. cbv zeta. rewrite E2, G1.
    destruct (IH g2 (cycles ++ [x :: mid ++ [x]])) as (g3 & cs & I1 & I2 & I3 & I4); auto; [lia|].
    exists g3, ((x :: mid ++ [x]) :: cs). rewrite I1, <- app_assoc. split; [reflexivity|]. split; auto. split; auto.
    apply broken_ext with (L2 := links_of g'). { intros; unfold links_of; rewrite R1; reflexivity. }
    apply broken_step with (u := u) (v := v) (L1 := links_of g2); auto.
Qed.

Lemma broken_sub L cs L' : broken L cs L' -> forall u v w, L' u v w -> L u v w.
Proof.
  induction 1 as [? ? E|? ? ? ? ? ? ? ? ? H1 ? IH]; intros a b z Hl. now apply E. apply IH in Hl. apply H1 in Hl. tauto.
Qed.
Lemma cycle_not_acyclic L c : cycle_of L c -> ~ acyclic L.
Proof.
  intros [(x & mid & -> & _) Hj] Ha. apply (Ha x).
  assert (Hg : forall l a, (forall u v, consecutive (a :: l ++ [x]) u v -> joined L u v) -> clos_trans nat (joined L) a x).
  { induction l as [|y l IH]; intros a Hc.
    - apply t_step, Hc. exists [], []; reflexivity.
    - apply t_trans with y. apply t_step, Hc. exists [], (l ++ [x]); reflexivity.
      apply IH. intros u v Huv. apply Hc. now apply consecutive_cons. }
  apply (Hg mid x Hj).
Qed.
Lemma broken_acyclic L cs L' : broken L cs L' -> acyclic L -> cs = [].
Proof.
  intros H Ha. inversion H; auto. exfalso. eapply cycle_not_acyclic; eauto.
Qed.

(** ** Theorems *)
(** Eliminating cycles ends; the result has no cycle, and arises from the input by breaking
    cycles at lightest links. An input without cycles is unchanged. *)
Theorem eliminate_cycles_correct : forall g, NoDup (map fst g) ->
  exists g' cs, eliminate_all g = Some (g', cs) /\
    broken (links_of g) cs (links_of g') /\ acyclic (links_of g') /\
    (acyclic (links_of g) -> cs = [] /\ forall u v w, links_of g' u v w <-> links_of g u v w).
Proof.
  intros g Hnd. unfold eliminate_all.
  destruct (eliminate_loop_correct (link_count g) g [] Hnd (le_n _)) as (g' & cs & E & H1 & H2 & H3).
  exists g', cs. repeat (split; [now auto|]). intros Ha. pose proof (broken_acyclic _ _ _ H2 Ha) as ->.
  split; auto. inversion H2; subst. intros; now symmetry.
Qed.
(** Listing the cycles: None exactly for a graph without cycles, and everything listed is a
    cycle of the graph. *)
Theorem list_cycles_correct : forall g, NoDup (map fst g) ->
  exists r, list_cycles g = Some r /\
    match r with
    | None => acyclic (links_of g)
    | Some cs => ~ acyclic (links_of g) /\ forall c, In c cs -> cycle_of (links_of g) c
    end.
Proof.
  intros g Hnd. destruct (eliminate_cycles_correct g Hnd) as (g' & cs & E & H1 & H2 & H3).
  unfold list_cycles. rewrite E. destruct cs as [|c cs]; eexists; split; try reflexivity; cbn beta iota.
  - inversion H1 as [? ? Hext|]; subst. apply acyclic_sub with (L := links_of g'); auto. intros; now apply Hext.
  - split. { inversion H1; subst. eapply cycle_not_acyclic; eauto. }
    clear -H1. remember (c :: cs) as l. clear Heql. generalize dependent (links_of g). generalize (links_of g').
    intros L' L H. induction H as [|L c0 u v L1 cs0 L' Hc Hl H1 H2 IH]; intros d Hd; [contradiction|].
    destruct Hd as [<-|Hd]; auto. specialize (IH d Hd). destruct IH as [I1 I2]. split; auto.
    intros a b Hab. destruct (I2 a b Hab) as (w & Hw). exists w. apply H1 in Hw. tauto.
Qed.

(** The dependencies of the table of works: predecessor, activity, count. *)
Definition row_links {A} (rows : list (row A)) : links := fun u v w =>
  exists r l, In r rows /\ In l (snd r) /\ fst r = v /\ ln_pred l = Some u /\ ln_count l = w.

Lemma add_edge_links g u v w : NoDup (map fst g) -> NoDup (map fst (add_edge g u v w)) /\
  forall u' v' w', links_of (add_edge g u v w) u' v' w' <-> links_of g u' v' w' \/ (u' = u /\ v' = v /\ w' = w).
Proof.
  intros H. unfold add_edge. split.
  - rewrite wset_keys. now apply wtouch_nodup.
  - intros u' v' w'. unfold links_of. rewrite wset_get by apply wtouch_key.
    destruct (Nat.eqb_spec u' u).
    + subst. rewrite in_app_iff, wtouch_get. cbn. split.
      * intros [Hl|[E|[]]]; auto. injection E as -> ->. auto.
      * intros [Hl|(_ & -> & ->)]; auto.
    + rewrite wtouch_get. split; [auto|]. intros [?|(? & _)]; [auto|congruence].
Qed.
Lemma add_row_links {A} (r : row A) g : NoDup (map fst g) -> NoDup (map fst (add_row g r)) /\
  forall u v w, links_of (add_row g r) u v w <->
     links_of g u v w \/ (fst r = v /\ exists l, In l (snd r) /\ ln_pred l = Some u /\ ln_count l = w).
Proof.
  unfold add_row. destruct r as [act ls]. cbn [fst snd]. revert g.
  induction ls as [|l ls IH]; intros g H; cbn [fold_left].
  - split; auto. intros. split; auto. intros [?|(_ & l & [] & _)]; auto.
  - destruct (ln_pred l) as [p|] eqn:Ep.
    + destruct (add_edge_links g p act (ln_count l) H) as [E1 E2].
      destruct (IH _ E1) as [I1 I2]. split; auto. intros u v w. rewrite I2, E2. split.
      * intros [[Hl|(-> & -> & ->)]|(E & l' & H1 & H2)]; auto.
        -- right. split; auto. exists l. split; [now left|auto].
        -- right. split; auto. exists l'. split; [now right|auto].
      * intros [Hl|(E & l' & [<-|H1] & H2 & H3)]; auto.
        -- left; right. repeat split; congruence.
        -- right. split; auto. exists l'; auto.
    + destruct (IH _ H) as [I1 I2]. split; auto. intros u v w. rewrite I2. split.
      * intros [Hl|(E & l' & H1 & H2)]; auto. right. split; auto. exists l'. split; [now right|auto].
      * intros [Hl|(E & l' & [<-|H1] & H2 & H3)]; auto; [congruence|]. right. split; auto. exists l'; auto.
Qed.
Lemma input_graph_links {A} (rows : list (row A)) : NoDup (map fst (input_graph rows)) /\
  forall u v w, links_of (input_graph rows) u v w <-> row_links rows u v w.
Proof.
  unfold input_graph.
  assert (Hg : forall g, NoDup (map fst g) -> NoDup (map fst (fold_left add_row rows g)) /\
     forall u v w, links_of (fold_left add_row rows g) u v w <-> links_of g u v w \/ row_links rows u v w).
  { induction rows as [|r rows IH]; intros g H; cbn [fold_left].
    - split; auto. intros. split; auto. intros [?|(r & l & [] & _)]; auto.
    - destruct (add_row_links r g H) as [E1 E2]. destruct (IH _ E1) as [I1 I2]. split; auto.
      intros u v w. rewrite I2, E2. unfold row_links. split.
      + intros [[Hl|(E & l & H1 & H2 & H3)]|(r' & l & H1 & H2)]; auto.
        * right. exists r, l. repeat split; auto. now left.
        * right. exists r', l. split; [now right|auto].
      + intros [Hl|(r' & l & [<-|H1] & H2 & H3 & H4 & H5)]; auto.
        * left; right. split; auto. exists l; auto.
        * right. exists r', l. auto. }
  destruct (Hg [] (NoDup_nil _)) as [I1 I2]. split; auto. intros u v w. rewrite I2. cbn. tauto.
Qed.
Lemma keep_links_spec {A} g act (ls : list (link A)) : keep_links g act ls =
  filter (fun l => match ln_pred l with
                   | None => true
                   | Some p => match ids_get g p with None => true | Some vs => mem act vs end
                   end) ls.
Proof. induction ls as [|l ls IH]; cbn; auto. rewrite IH. reflexivity. Qed.
Lemma ids_get_map (g : wgraph) u : ids_get (map (fun e => (fst e, map fst (snd e))) g) u =
  if whas g u then Some (map fst (wget g u)) else None.
Proof.
  induction g as [|[k l] g IH]; cbn; auto. destruct (Nat.eqb k u); cbn; auto.
Qed.
Lemma filter_same {A} (f : A -> bool) l : (forall x, In x l -> f x = true) -> filter f l = l.
Proof.
  induction l as [|x l IH]; cbn; intros H; auto. rewrite (H x) by auto. rewrite IH; auto.
Qed.

(** break_loops_in_input_graph: it ends; every row keeps its links in order except for the
    links between the pairs of works at which a cycle was broken, each lightest on its
    cycle; the predecessor '-1' stays; the result has no cycle; a table without cycles
    is unchanged. *)
Theorem break_loops_correct : forall A (rows : list (row A)),
  exists rows' cs (keep : nat -> nat -> bool),
    break_loops rows = Some rows' /\
    rows' = map (fun r => (fst r, filter (fun l => match ln_pred l with None => true | Some p => keep p (fst r) end)
                                         (snd r))) rows /\
    broken (row_links rows) cs (row_links rows') /\
    acyclic (row_links rows') /\
    (acyclic (row_links rows) -> rows' = rows).
Proof.
  intros A rows. destruct (input_graph_links rows) as [Hnd Hl].
  destruct (eliminate_cycles_correct _ Hnd) as (g' & cs & E & H1 & H2 & H3).
  unfold break_loops, eliminate_cycles. rewrite E.
  set (keep := fun p act => if whas g' p then mem act (map fst (wget g' p)) else true).
  assert (Erows : forall ls act, keep_links (map (fun e => (fst e, map fst (snd e))) g') act ls =
     filter (fun l : link A => match ln_pred l with None => true | Some p => keep p act end) ls).
  { intros ls act. rewrite keep_links_spec. apply filter_ext. intros l. destruct (ln_pred l) as [p|]; auto.
    rewrite ids_get_map. unfold keep. destruct (whas g' p); auto. }
  set (rows' := map (fun r : row A => (fst r, keep_links (map (fun e => (fst e, map fst (snd e))) g') (fst r) (snd r))) rows).
  assert (Er : rows' = map (fun r => (fst r, filter (fun l => match ln_pred l with None => true | Some p => keep p (fst r) end) (snd r))) rows).
  { apply map_ext. intros r. now rewrite Erows. }
  (* the keys of the input graph stay *)
  assert (Hkeys : forall u v w, row_links rows u v w -> whas g' u = true).
  { intros u v w Hr. apply Hl in Hr.
    assert (Hin : In u (map fst (input_graph rows))) by (eapply wget_haskey; exact Hr).
    assert (Hmono : forall fuel g c gg cc, NoDup (map fst g) -> eliminate_loop fuel g c = Some (gg, cc) -> In u (map fst g) -> In u (map fst gg)).
    { clear. assert (Hd : forall f g st ss b g1 st1, dfs_loop f g ss st = Some (b, g1, st1) -> incl (map fst g) (map fst g1)).
      { induction f as [|f IH]; intros g st ss b g1 st1 H; destruct ss as [|v ss]; cbn [dfs_loop] in H; try discriminate.
        - injection H as <- <- <-. apply incl_refl.
        - injection H as <- <- <-. apply incl_refl.
        - destruct (Nat.eqb (st v) 1); [eauto|]. destruct (Nat.eqb (st v) 2); [eauto|].
          destruct (push_neighbours _ _ _).
          + eapply incl_tran; [apply (wtouch_keys g v)|]. eauto.
          + injection H as <- <- <-. apply wtouch_keys. }
      assert (Hf : forall keys g t st r, find_loop g keys t st = Some r ->
         incl (map fst g) (map fst (match r with NoCycle g1 => g1 | Cycle g1 _ => g1 end))).
      { induction keys as [|k keys IH]; intros g t st r H; cbn [find_loop] in H.
        - injection H as <-. apply incl_refl.
        - destruct (Nat.eqb (st k) 0); [|eauto].
          destruct (dfs_cycle g k st) as [[[b g1] st1]|] eqn:Ed; [|discriminate].
          apply Hd in Ed. destruct b.
          + destruct (follow _ _ _ _); [|discriminate]. injection H as <-. exact Ed.
          + eapply incl_tran; eauto. }
      induction fuel as [|f IH]; intros g c gg cc Hnd H Hin; cbn [eliminate_loop] in H;
        destruct (find_cycle g) as [[g1|g1 path]|] eqn:Ef; try discriminate; unfold find_cycle in Ef;
        pose proof (Hf _ _ _ _ _ Ef) as Hi; cbn beta iota in Hi.
      - injection H as <- <-. auto.
      - injection H as <- <-. auto.
      - cbv zeta in H. unfold eliminate_cycle in H. destruct (best_edge _ _ _) as [[z [a b]]|]; [|discriminate].
        eapply IH; [|exact H|].
        + rewrite wset_keys. pose proof (find_cycle_correct g Hnd) as (r & Er & Hr). unfold find_cycle in Er.
          rewrite Ef in Er. injection Er as <-. apply Hr.
        + rewrite wset_keys. auto. }
    apply whas_in. eapply Hmono; [exact Hnd|exact E|exact Hin]. }
  assert (Hrl : forall u v w, row_links rows' u v w <-> links_of g' u v w).
  { intros u v w. rewrite Er. unfold row_links. split.
    - intros (r & l & Hr & Hln & Ev & Ep & Ew). apply in_map_iff in Hr. destruct Hr as (r0 & <- & Hr0).
      cbn [fst snd] in *. apply filter_In in Hln. destruct Hln as [Hln Hk]. rewrite Ep in Hk.
      assert (Hrow : row_links rows u v w) by (exists r0, l; auto).
      unfold keep in Hk. rewrite (Hkeys _ _ _ Hrow) in Hk. rewrite Ev in Hk. apply mem_true in Hk.
      (* all links of a kept pair are kept *)
      apply in_map_iff in Hk. destruct Hk as ([v' w'] & <- & Hin'). cbn [fst] in *.
      clear -H1 Hin' Hrow Hl. apply Hl in Hrow.
      assert (Hb : forall L cs L', broken L cs L' -> forall u v w w', L u v w -> L' u v w' -> L' u v w).
      { clear. induction 1 as [? ? Hx|? ? ? ? ? ? ? ? ? Hx Hb IH]; intros u0 v0 w w' HL HL'. now apply Hx.
        eapply IH; eauto. apply Hx. split; auto. apply (broken_sub _ _ _ Hb) in HL'. apply Hx in HL'. tauto. }
      exact (Hb _ _ _ H1 _ _ _ _ Hrow Hin').
    - intros Hl'. pose proof (broken_sub _ _ _ H1 _ _ _ Hl') as Hi. apply Hl in Hi. pose proof Hi as Hi'.
      destruct Hi as (r & l & Hr & Hln & Ev & Ep & Ew).
      eexists _, l. split; [apply in_map_iff; exists r; split; [reflexivity|exact Hr]|]. cbn [fst snd].
      repeat split; auto. apply filter_In. split; auto. rewrite Ep. unfold keep.
      rewrite (Hkeys _ _ _ Hi'). apply mem_true. rewrite Ev. apply in_map_iff. exists (v, w). split; auto. }
  exists rows', cs, keep. split; [reflexivity|]. split; auto. split; [|split].
  - apply broken_ext with (L2 := links_of (input_graph rows)). { intros; symmetry; apply Hl. }
    clear -H1 Hrl. remember (links_of g') as L' eqn:EL. induction H1 as [L L' Hx|L c u v L1 cs L' Hc Hli Hx Hb IH]; subst.
    + constructor. intros. rewrite Hx. symmetry. apply Hrl.
    + eapply broken_step; eauto.
  - apply acyclic_sub with (L := links_of g'); auto. intros; now apply Hrl.
  - intros Ha.
    assert (Ha' : acyclic (links_of (input_graph rows))).
    { apply acyclic_sub with (L := row_links rows); auto. intros; now apply Hl. }
    destruct (H3 Ha') as [_ Hsame]. rewrite Er. rewrite <- (map_id rows) at 2. apply map_ext_in.
    intros [act ls] Hr. cbn [fst snd]. f_equal. apply filter_same. intros l Hln.
    destruct (ln_pred l) as [p|] eqn:Ep; auto.
    assert (Hrow : row_links rows p act (ln_count l)) by (exists (act, ls), l; auto).
    unfold keep. rewrite (Hkeys _ _ _ Hrow). apply mem_true, in_map_iff. exists (act, ln_count l). split; auto.
    apply Hsame, Hl, Hrow.
Qed.

(** Finding: parallel links between the two works are removed with the lightest one,
    whatever their weight. *)
Theorem heavy_parallel_link_removed :
  exists rows : list (row unit),
    rows = [(2, [Link (Some 1) tt (Some 1%Z); Link (Some 1) tt (Some 100%Z)]); (1, [Link (Some 2) tt (Some 5%Z)])] /\
    break_loops rows = Some [(2, []); (1, [Link (Some 2) tt (Some 5%Z)])].
Proof. eexists; split; [reflexivity|]. vm_compute. reflexivity. Qed.

Print Assumptions eliminate_cycles_correct.
Print Assumptions list_cycles_correct.
Print Assumptions break_loops_correct.
Print Assumptions heavy_parallel_link_removed.

(** Two overlapping cycles and a self loop. *)
Example break_loops_ex :
  let l p w := Link (Some p) tt (Some w) in
  let rows := [(2, [l 1 5%Z; l 3 1%Z]); (3, [l 2 4%Z; Link None tt None; l 1 2%Z]); (1, [l 3 9%Z]); (4, [l 4 1%Z; l 1 7%Z])] in
  ~ acyclic (row_links rows) /\
  break_loops rows = Some [(2, [l 1 5%Z]); (3, [Link None tt None]); (1, [l 3 9%Z]); (4, [l 1 7%Z])].
Proof.
  cbv zeta. split; [|vm_compute; reflexivity].
  intros H. apply (H 4). apply t_step. exists (Some 1%Z). 
  exists (4, [Link (Some 4) tt (Some 1%Z); Link (Some 1) tt (Some 7%Z)]), (Link (Some 4) tt (Some 1%Z)).
  cbn. repeat split; auto 10.
Qed.
