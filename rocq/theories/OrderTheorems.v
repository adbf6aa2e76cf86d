(** C39 and C49: the order of the rows of a Schedule and its execution time. *)
From Coq Require Import ZArith List Bool Lia Arith Relations Sorted Permutation.
From Verif Require Import TimeModel MomentumModel GraphModel ScheduleSpec ScheduleInv Digraph StableSort TopoModel TopoProofs
  TopoTheorems TraverseModel ContractorProofs ScheduleModel TeamProofs ScheduleProofs ScheduleTheorems ValidationModel ValidationTheorems OrderModel.
Import ListNotations.

(** Nothing that comes later in [out] or is in [rest] is a parent. *)
Definition no_parent_later (g : graph) (out rest : list nat) : Prop :=
  forall p n q, out = p ++ n :: q -> forall x, depends_on g x n -> ~ In x (n :: q ++ rest).

Lemma parent_check g n na : existsb (fun p => mem p na) (parents g n) = false <-> forall x, depends_on g x n -> ~ In x na.
Proof.
  split.
  - intros H x Hx Hi. assert (C : existsb (fun p => mem p na) (parents g n) = true); [|congruence].
    apply existsb_exists. exists x. split; [apply parents_in; exact Hx|apply mem_in; exact Hi].
  - intros H. destruct (existsb _ _) eqn:E; [|reflexivity]. apply existsb_exists in E as (x & Hx & Hm).
    exfalso. apply (H x); [apply parents_in; exact Hx|apply mem_in; exact Hm].
Qed.
Lemma remove_perm n l : NoDup l -> In n l -> Permutation (n :: remove Nat.eq_dec n l) l.
Proof.
  intros Hnd Hn. apply NoDup_Permutation; [constructor; [apply remove_In|]|exact Hnd|].
  - clear Hn. induction l as [|x l IH]; simpl; [constructor|]. inversion Hnd; subst. destruct (Nat.eq_dec n x); auto.
    constructor; auto. intros H. apply in_remove in H as [H _]. contradiction.
  - intros x. simpl. split.
    + intros [<-|H]; [exact Hn|]. apply in_remove in H as [H _]. exact H.
    + intros H. destruct (Nat.eq_dec n x); [auto|]. right. apply in_in_remove; auto.
Qed.
Lemma class_pass_spec g : forall cls na na' out, NoDup cls -> incl cls na -> NoDup na -> class_pass g cls na = (na', out) ->
  Permutation (out ++ na') na /\ no_parent_later g out na'
  /\ (forall m, In m cls -> (forall x, depends_on g x m -> ~ In x na) -> In m out).
Proof.
  induction cls as [|n cls IH]; intros na na' out Hc Hi Hn H; cbn [class_pass] in H.
  - injection H as <- <-. split; [apply Permutation_refl|]. split; [intros p n q E; destruct p; discriminate|intros m []].
  - inversion Hc; subst. destruct (existsb _ (parents g n)) eqn:E.
    + destruct (IH na na' out) as (P & N & M); auto; [intros x Hx; apply Hi; right; exact Hx|].
      split; [exact P|]. split; [exact N|]. intros m [<-|Hm] Hd; [|auto].
      assert (C := proj2 (parent_check g n na) Hd). congruence.
    + assert (Hnn : In n na) by (apply Hi; left; reflexivity).
      assert (HPn := remove_perm n na Hn Hnn).
      destruct (class_pass g cls (remove Nat.eq_dec n na)) as [na1 out1] eqn:E1. injection H as <- <-.
      assert (Hnd1 : NoDup (remove Nat.eq_dec n na)).
      { assert (C : NoDup (n :: remove Nat.eq_dec n na)) by (eapply Permutation_NoDup; [apply Permutation_sym; exact HPn|exact Hn]).
        inversion C; assumption. }
      destruct (IH (remove Nat.eq_dec n na) na1 out1) as (P & N & M); auto.
      { intros x Hx. apply in_in_remove; [intros ->; contradiction|]. apply Hi. right. exact Hx. }
      assert (P' : Permutation ((n :: out1) ++ na1) na).
      { simpl. eapply Permutation_trans; [apply perm_skip; exact P|exact HPn]. }
      split; [exact P'|]. split.
      * intros p m q Eq x Hx. destruct p as [|z p]; simpl in Eq; injection Eq as <- Eq.
        -- subst q. intros C. apply (proj1 (parent_check g n na) E x Hx). apply (Permutation_in _ P'). exact C.
        -- apply (N p m q Eq x Hx).
      * intros m [<-|Hm] Hd; [left; reflexivity|]. right. apply M; [exact Hm|]. intros x Hx Hi'. apply in_remove in Hi' as [Hi' _]. apply (Hd x Hx Hi').
Qed.
Lemma no_parent_later_app g a b r : no_parent_later g a r -> no_parent_later g b [] -> Permutation b r -> no_parent_later g (a ++ b) [].
Proof.
  intros Ha Hb P p n q E x Hx. apply app_eq_app in E as (l & [[E1 E2]|[E1 E2]]).
  - destruct l as [|z l]; simpl in E2.
    + specialize (Hb [] n q (eq_sym E2) x Hx). exact Hb.
    + injection E2 as <- E2. subst q. specialize (Ha p n l E1 x Hx). intros C. apply Ha. rewrite app_nil_r in C.
      destruct C as [C|C]; [left; exact C|right]. apply in_app_or in C as [C|C]; apply in_or_app; [auto|right].
      eapply Permutation_in; eauto.
  - exact (Hb l n q E2 x Hx).
Qed.
Lemma no_parent_later_topological g l : no_parent_later g l [] -> topological (depends_on g) l.
Proof.
  intros H x y Hxy Hx Hy. apply in_split in Hy as (p & q & E). assert (N := H p y q E x Hxy). rewrite app_nil_r in N.
  subst l. apply in_app_or in Hx as [Hx|Hx]; [|contradiction]. apply in_split in Hx as (p1 & p2 & ->).
  exists p1, p2, q. rewrite <- app_assoc. reflexivity.
Qed.

Section Order.
  Variable listing : list nat -> list nat.
  Hypothesis Hlist : forall l, Permutation (listing l) l.
  Variable g : graph.
  Hypothesis Hac : acyclic (depends_on g).

  Lemma class_loop_spec : forall fuel cls, NoDup cls -> length cls <= fuel ->
    exists out, class_loop listing fuel g cls = Ends out /\ Permutation out cls /\ no_parent_later g out [].
  Proof.
    induction fuel as [|fuel IH]; intros cls Hnd Hlen.
    - destruct cls; [|cbn [length] in Hlen; lia]. exists []. split; [reflexivity|]. split; [constructor|]. intros p n q E. destruct p; discriminate.
    - destruct cls as [|c0 cs] eqn:Ec.
      + exists []. split; [reflexivity|]. split; [constructor|]. intros p n q E. destruct p; discriminate.
      + rewrite <- Ec in *. assert (Hne : cls <> []) by (rewrite Ec; discriminate). clear Ec c0 cs.
        assert (E0 : class_loop listing (S fuel) g cls =
          let '(na, out) := class_pass g (listing cls) cls in
          match class_loop listing fuel g na with Ends l => Ends (out ++ l) | Running => Running end)
          by (destruct cls; [congruence|reflexivity]).
        rewrite E0. clear E0.
        destruct (class_pass g (listing cls) cls) as [na out] eqn:Ep.
        destruct (class_pass_spec g (listing cls) cls na out) as (P & N & M); auto.
        { eapply Permutation_NoDup; [apply Permutation_sym, Hlist|exact Hnd]. }
        { intros x Hx. eapply Permutation_in; [apply Hlist|exact Hx]. }
        (* some work without a parent in the class is added *)
        assert (Hout : out <> []).
        { assert (Hdec : (exists m, In m cls /\ forall x, depends_on g x m -> ~ In x cls)
                         \/ (forall m, In m cls -> exists x, In x cls /\ depends_on g x m)).
          { assert (G : forall l, (exists m, In m l /\ forall x, depends_on g x m -> ~ In x cls)
                         \/ (forall m, In m l -> exists x, In x cls /\ depends_on g x m)).
            { induction l as [|z l IHl]; [right; intros m []|].
              destruct (existsb (fun p => mem p cls) (parents g z)) eqn:Ez.
              - apply existsb_exists in Ez as (x & Hx & Hm). apply parents_in in Hx. apply mem_in in Hm.
                destruct IHl as [(m & Hm' & Hd)|IHl]; [left; exists m; split; [right; exact Hm'|exact Hd]|].
                right. intros m [<-|Hm']; [eauto|auto].
              - left. exists z. split; [left; reflexivity|]. apply parent_check. exact Ez. }
            apply G. }
          destruct Hdec as [(m & Hm & Hd)|Hdec].
          - intros ->. apply (M m); [|exact Hd]. eapply Permutation_in; [apply Permutation_sym, Hlist|exact Hm].
          - exfalso. apply (acyclic_minimal (depends_on g) cls Hac Hne). exact Hdec. }
        assert (Hl := Permutation_length P). rewrite app_length in Hl. destruct out as [|o os]; [congruence|]. cbn [length] in Hl.
        destruct (IH na) as (out2 & -> & P2 & N2).
        { assert (C : NoDup ((o :: os) ++ na)) by (eapply Permutation_NoDup; [apply Permutation_sym; exact P|exact Hnd]).
          clear -C. induction (o :: os); [exact C|]. inversion C; auto. }
        { lia. }
        exists ((o :: os) ++ out2). split; [reflexivity|]. split.
        * eapply Permutation_trans; [apply Permutation_app_head; exact P2|exact P].
        * eapply no_parent_later_app; eauto.
  Qed.

  Variable st : nat -> Z.
  Definition by_time (l : list nat) : Prop := StronglySorted (fun x y => (st x <= st y)%Z) l.
  Definition ties_topological (l : list nat) : Prop :=
    forall x y, depends_on g x y -> st x = st y -> In x l -> In y l -> comes_before l x y.
  Lemma by_time_app a b : by_time a -> by_time b -> (forall x y, In x a -> In y b -> (st x <= st y)%Z) -> by_time (a ++ b).
  Proof.
    unfold by_time. intros Ha Hb H. induction Ha as [|x a Ha IH Hf]; simpl; [exact Hb|]. constructor.
    - apply IH. intros u v Hu Hv. apply H; [right; exact Hu|exact Hv].
    - rewrite Forall_forall in *. intros y Hy. apply in_app_or in Hy as [Hy|Hy]; [auto|]. apply H; [left; reflexivity|exact Hy].
  Qed.
  Lemma same_time l t : (forall x, In x l -> st x = t) -> by_time l.
  Proof.
    unfold by_time. induction l as [|x l IH]; intros H; constructor; [apply IH; intros y Hy; apply H; right; exact Hy|].
    apply Forall_forall. intros y Hy. rewrite (H x (or_introl eq_refl)), (H y (or_intror Hy)). lia.
  Qed.

  Lemma classes_spec fuel : forall l cur cls,
    StronglySorted (fun x y => (fst x <= fst y)%Z) l -> NoDup (cls ++ map snd l) ->
    (forall t n, In (t, n) l -> st n = t) -> (forall n, In n cls -> st n = cur) ->
    (cls <> [] -> forall t n, In (t, n) l -> (cur <= t)%Z) ->
    length cls + length l <= fuel ->
    exists out, classes listing fuel g l cur cls = Ends out /\ Permutation out (cls ++ map snd l)
      /\ by_time out /\ ties_topological out.
  Proof.
    induction l as [|[t n] l IH]; intros cur cls Hs Hnd Ht Hc Hlow Hlen; cbn [classes].
    - cbn [map] in *. rewrite app_nil_r in *. destruct (class_loop_spec fuel cls) as (out & -> & P & N); [exact Hnd|cbn [length] in Hlen; lia|].
      exists out. split; [reflexivity|]. split; [exact P|]. split.
      + apply (same_time out cur). intros x Hx. apply Hc. eapply Permutation_in; eauto.
      + intros x y Hxy _ Hx Hy. apply (no_parent_later_topological g out N); assumption.
    - apply StronglySorted_inv in Hs as [Hs Hf]. rewrite Forall_forall in Hf.
      assert (Hn : ~ In n cls).
      { cbn [map snd] in Hnd. apply NoDup_remove_2 in Hnd. rewrite in_app_iff in Hnd. tauto. }
      assert (Htn : st n = t) by (apply Ht; left; reflexivity).
      set (cur' := match cls with [] => t | _ => cur end).
      assert (Hc' : forall m, In m cls -> st m = cur') by (unfold cur'; destruct cls; [intros m []|exact Hc]).
      assert (Hle : (cur' <= t)%Z).
      { unfold cur'. destruct cls; [lia|]. eapply Hlow; [discriminate|left; reflexivity]. }
      destruct (Z.eqb_spec t cur') as [Et|Et].
      + assert (Ea : set_add n cls = n :: cls) by (unfold set_add; apply mem_nin in Hn; rewrite Hn; reflexivity).
        rewrite Ea. destruct (IH cur' (n :: cls)) as (out & -> & P & B & T); auto.
        * cbn [map snd] in Hnd. eapply Permutation_NoDup; [|exact Hnd]. simpl. apply Permutation_sym, Permutation_middle.
        * intros t' n' H'. apply Ht. right. exact H'.
        * intros m [<-|Hm]; [congruence|auto].
        * intros _ t' n' H'. specialize (Hf (t', n') H'). cbn [fst] in Hf. lia.
        * cbn [length] in *. lia.
        * exists out. split; [reflexivity|]. split; [|auto].
          eapply Permutation_trans; [exact P|]. cbn [map snd]. simpl. apply Permutation_middle.
      + assert (Hlt : (cur' < t)%Z) by lia.
        destruct (class_loop_spec fuel cls) as (out & -> & P & N).
        { clear -Hnd. induction cls; [constructor|]. inversion Hnd; subst. constructor; [|auto]. intros H. apply H1. apply in_or_app. auto. }
        { cbn [length] in Hlen. lia. }
        assert (Hne : cls <> []) by (intros ->; apply Et; reflexivity).
        destruct (IH t [n]) as (out' & -> & P' & B' & T'); auto.
        * cbn [map snd] in Hnd. clear -Hnd. induction cls; [exact Hnd|]. inversion Hnd; auto.
        * intros t' n' H'. apply Ht. right. exact H'.
        * intros m [<-|[]]. exact Htn.
        * intros _ t' n' H'. specialize (Hf (t', n') H'). exact Hf.
        * cbn [length] in *. destruct cls; [congruence|]. cbn [length] in *. lia.
        * assert (Ho : forall x, In x out -> st x = cur') by (intros x Hx; apply Hc'; eapply Permutation_in; eauto).
          assert (Ho' : forall x, In x out' -> (t <= st x)%Z).
          { intros x Hx. apply (Permutation_in _ P') in Hx. destruct Hx as [<-|Hx]; [lia|].
            apply in_map_iff in Hx as ([t' n'] & <- & Hx). cbn [snd]. rewrite (Ht t' n') by (right; exact Hx). specialize (Hf _ Hx). exact Hf. }
          exists (out ++ out'). split; [reflexivity|]. split; [apply Permutation_app; assumption|]. split.
          -- apply by_time_app; [apply (same_time out cur' Ho)|exact B'|]. intros x y Hx Hy. rewrite (Ho x Hx). specialize (Ho' y Hy). lia.
          -- intros x y Hxy E Hx Hy. apply in_app_or in Hx, Hy. destruct Hx as [Hx|Hx], Hy as [Hy|Hy].
             ++ apply comes_before_app_l. apply (no_parent_later_topological g out N); assumption.
             ++ exfalso. rewrite (Ho x Hx) in E. specialize (Ho' y Hy). lia.
             ++ exfalso. rewrite (Ho y Hy) in E. specialize (Ho' x Hx). lia.
             ++ apply comes_before_app_r. apply T'; assumption.
  Qed.
End Order.

Lemma unique_start (ws : works) n w w' : NoDup (map fst ws) -> In (n, w) ws -> In (n, w') ws -> w = w'.
Proof.
  induction ws as [|[m v] ws IH]; simpl; intros Hnd H H'; [destruct H|]. inversion Hnd; subst.
  assert (K : forall u, In (n, u) ws -> In n (map fst ws)) by (intros u Hu; apply in_map_iff; exists (n, u); auto).
  destruct H as [[= -> ->]|H], H' as [[= E]|H']; [auto|exfalso; eauto|subst; exfalso; eauto|auto].
Qed.
Lemma rows_perm (ws : works) ids : NoDup (map fst ws) -> Permutation ids (map fst ws) ->
  map fst (concat (map (fun n => filter (fun x => Nat.eqb (fst x) n) ws) ids)) = ids
  /\ Permutation (concat (map (fun n => filter (fun x => Nat.eqb (fst x) n) ws) ids)) ws.
Proof.
  intros Hnd HP.
  assert (Hf : forall n, In n (map fst ws) -> exists w, In (n, w) ws /\ filter (fun x => Nat.eqb (fst x) n) ws = [(n, w)]).
  { intros n Hn. clear HP. induction ws as [|[m v] ws IH]; [destruct Hn|]. simpl in *. inversion Hnd; subst.
    assert (Hz : forall k, ~ In k (map fst ws) -> filter (fun x => Nat.eqb (fst x) k) ws = []).
    { intros k Hk. clear -Hk. induction ws as [|[a b] ws IH]; [reflexivity|]. simpl in *. destruct (Nat.eqb_spec a k); [tauto|]. apply IH. tauto. }
    destruct (Nat.eqb_spec m n) as [->|Hne].
    - exists v. split; [auto|]. rewrite Hz by assumption. reflexivity.
    - destruct Hn as [->|Hn]; [congruence|]. destruct (IH H2 Hn) as (w & Hw & Ew). exists w. auto. }
  assert (G : forall l, (forall n, In n l -> In n (map fst ws)) -> map fst (concat (map (fun n => filter (fun x => Nat.eqb (fst x) n) ws) l)) = l
              /\ forall x, In x (concat (map (fun n => filter (fun x => Nat.eqb (fst x) n) ws) l)) <-> In x ws /\ In (fst x) l).
  { induction l as [|n l IH]; intros Hl; [split; [reflexivity|simpl; tauto]|]. cbn [map concat].
    destruct (IH (fun m Hm => Hl m (or_intror Hm))) as [I1 I2]. destruct (Hf n (Hl n (or_introl eq_refl))) as (w & Hw & Ew). rewrite Ew.
    split; [simpl; rewrite I1; reflexivity|]. intros [a b]. simpl. rewrite I2. cbn [fst]. split.
    - intros [[= <- <-]|[H H']]; auto.
    - intros [H [<-|H']]; [left; f_equal; eapply unique_start; eauto|auto]. }
  destruct (G ids) as [G1 G2]; [intros n Hn; eapply Permutation_in; eauto|]. split; [exact G1|].
  apply NoDup_Permutation.
  - apply (NoDup_map_inv fst). rewrite G1. eapply Permutation_NoDup; [apply Permutation_sym; exact HP|exact Hnd].
  - apply (NoDup_map_inv fst). exact Hnd.
  - intros x. rewrite G2. split; [tauto|]. intros Hx. split; [exact Hx|]. apply (Permutation_in _ (Permutation_sym HP)). apply in_map. exact Hx.
Qed.

(** ** C39 *)
(** For works with distinct ids and a graph without cyclic dependencies, building the
    Schedule ends; its rows are the given works, ordered by start time, and a work comes
    after each work it depends on that does not start later. The order in which sets are
    iterated does not matter. *)
Theorem rows_ordered (listing : list nat -> list nat) (g : graph) (ws : works) :
  (forall l, Permutation (listing l) l) -> acyclic (depends_on g) -> NoDup (map fst ws) ->
  exists rows, schedule_rows listing g ws = Ends rows
    /\ Permutation rows ws
    /\ StronglySorted (fun x y => (sw_start (snd x) <= sw_start (snd y))%Z) rows
    /\ (forall n m v w, depends_on g n m -> In (n, v) rows -> In (m, w) rows -> (sw_start v <= sw_start w)%Z ->
          comes_before rows (n, v) (m, w)).
Proof.
  intros Hlist Hac Hnd. unfold schedule_rows, order_nodes_by_start_time.
  set (key := fun x : nat * swork => sw_start (snd x)).
  set (sorted := sort_by key ws). assert (HP : Permutation sorted ws) by apply sort_perm.
  set (st := fun n => match sd_get ws n with Some w => sw_start w | None => 0%Z end).
  assert (Hget : forall n w, In (n, w) ws -> sd_get ws n = Some w).
  { clear -Hnd. induction ws as [|[m v] ws IH]; simpl; intros n w H; [destruct H|]. inversion Hnd; subst.
    destruct (Nat.eqb_spec m n) as [->|Hne].
    - destruct H as [[= ->]|H]; [reflexivity|]. exfalso. apply H2. apply in_map_iff. exists (n, w). auto.
    - destruct H as [[= ? ?]|H]; [congruence|]. auto. }
  destruct (classes_spec listing Hlist g Hac st (length ws) (map (fun x => (sw_start (snd x), fst x)) sorted) 0%Z []) as (ids & E & P & B & T).
  - assert (Ha := sort_ascending key ws). fold sorted in Ha. clear -Ha. unfold ascending in Ha.
    induction Ha as [|x l Hl IH Hf]; simpl; constructor; auto. clear IH Hl. induction Hf; simpl; constructor; auto.
  - cbn [app]. rewrite map_map. cbn [snd]. change (map (fun x : nat * swork => fst x)) with (map (@fst nat swork)).
    eapply Permutation_NoDup; [apply Permutation_map, Permutation_sym; exact HP|exact Hnd].
  - intros t n H. apply in_map_iff in H as ([m w] & [= <- <-] & H). apply (Permutation_in _ HP) in H. unfold st. rewrite (Hget _ _ H). reflexivity.
  - intros n [].
  - congruence.
  - cbn [length]. rewrite map_length. rewrite (Permutation_length HP). lia.
  - cbn [app] in P. rewrite map_map in P. cbn [snd] in P. change (map (fun x : nat * swork => fst x)) with (map (@fst nat swork)) in P.
    assert (P' : Permutation ids (map fst ws)) by (eapply Permutation_trans; [exact P|apply Permutation_map; exact HP]).
    rewrite E. destruct (rows_perm ws ids Hnd P') as [Em Pr].
    set (rows := concat _) in *. exists rows. split; [reflexivity|]. split; [exact Pr|].
    assert (Hst : forall n w, In (n, w) rows -> st n = sw_start w).
    { intros n w H. apply (Permutation_in _ Pr) in H. unfold st. rewrite (Hget _ _ H). reflexivity. }
    assert (Hnr : NoDup (map fst rows)) by (rewrite Em; eapply Permutation_NoDup; [apply Permutation_sym; exact P'|exact Hnd]).
    assert (Hbt : StronglySorted (fun x y => (sw_start (snd x) <= sw_start (snd y))%Z) rows).
    { clear -B Em Hst. unfold by_time in B. rewrite <- Em in B. clear Em. induction rows as [|[n w] rows IH]; constructor.
      - apply IH; [|intros a b H; apply Hst; right; exact H]. apply StronglySorted_inv in B. tauto.
      - apply StronglySorted_inv in B as [_ B]. rewrite Forall_forall in *. intros [a b] H. cbn [snd].
        rewrite <- (Hst n w), <- (Hst a b); [|right; exact H|left; reflexivity]. apply B. apply in_map_iff. exists (a, b). auto. }
    split; [exact Hbt|]. intros n m v w Hd Hn Hm Hle.
    (* order of the ids *)
    assert (Hin : forall a b, In (a, b) rows -> In a ids) by (intros a b H; rewrite <- Em; apply in_map_iff; exists (a, b); auto).
    assert (Hcb : comes_before ids n m).
    { destruct (Z.eq_dec (sw_start v) (sw_start w)) as [Eq|Ne].
      - apply T; [exact Hd| |eauto|eauto]. rewrite (Hst n v), (Hst m w); auto.
      - destruct (comes_before_total ids n m) as [H|(p & q & r & H)]; eauto; [intros ->; apply (Hac m); apply t_step; exact Hd|].
        exfalso. unfold by_time in B. rewrite H in B. clear -B Ne Hle Hst Hn Hm.
        induction p as [|z p IH]; simpl in B; apply StronglySorted_inv in B as [B Bf]; [|auto].
        rewrite Forall_forall in Bf. specialize (Bf n ltac:(apply in_or_app; right; left; reflexivity)).
        rewrite (Hst m w), (Hst n v) in Bf by assumption. lia. }
    destruct Hcb as (p & q & r & Hcb). rewrite <- Em in Hcb.
    apply map_eq_app in Hcb as (l1 & l2 & E1 & _ & E2). destruct l2 as [|[a b] l2]; [discriminate|]. cbn [map fst] in E2. injection E2 as -> E2.
    apply map_eq_app in E2 as (l3 & l4 & E3 & _ & E4). destruct l4 as [|[c d] l4]; [discriminate|]. cbn [map fst] in E4. injection E4 as -> E4.
    subst l2. exists l1, l3, l4. rewrite E1.
    assert (b = v) by (apply (unique_start rows n); auto; rewrite E1; apply in_or_app; right; left; reflexivity).
    assert (d = w).
    { apply (unique_start rows m); auto. rewrite E1. apply in_or_app. right. right. apply in_or_app. right. left. reflexivity. }
    subst b d. reflexivity.
Qed.
Print Assumptions rows_ordered.

(** ** C49: execution time *)
(** If every dependent work starts after its prerequisite ends, every work but the finish
    work leads to the finish work, and all of them are scheduled, then the execution time
    of the Schedule is the latest finish time. *)
Theorem execution_time_is_latest_finish (listing : list nat -> list nat) (g : graph) (ws : works) (finish : nat) :
  (forall l, Permutation (listing l) l) -> acyclic (depends_on g) -> NoDup (map fst ws) ->
  (forall n w, In (n, w) ws -> (sw_start w <= sw_finish w)%Z) ->
  (forall n m v w, depends_on g n m -> In (n, v) ws -> In (m, w) ws -> (sw_finish v <= sw_start w)%Z) ->
  In finish (map fst ws) ->
  (forall n m, depends_on g n m -> In n (map fst ws) /\ In m (map fst ws)) ->
  (forall n, In n (map fst ws) -> n = finish \/ path (depends_on g) n finish) ->
  exists rows t, schedule_rows listing g ws = Ends rows /\ execution_time rows = Some t
    /\ (forall n w, In (n, w) ws -> (sw_finish w <= t)%Z) /\ (exists n w, In (n, w) ws /\ sw_finish w = t).
Proof.
  intros Hlist Hac Hnd Hpos Hprec Hf Hcl Hall.
  destruct (rows_ordered listing g ws Hlist Hac Hnd) as (rows & E & P & S & T).
  exists rows.
  apply in_map_iff in Hf as ([f wf] & Ef & Hf). cbn [fst] in Ef. subst f.
  assert (Hnr : NoDup (map fst rows)) by (eapply Permutation_NoDup; [apply Permutation_map, Permutation_sym; exact P|exact Hnd]).
  assert (Hr : forall x, In x rows <-> In x ws) by (intros x; split; apply Permutation_in; [exact P|apply Permutation_sym; exact P]).
  assert (Hw : forall n, In n (map fst ws) -> exists w, In (n, w) ws).
  { intros n H. apply in_map_iff in H as ([a b] & <- & H). eauto. }
  assert (Hcb : forall n m, path (depends_on g) n m -> forall v w, In (n, v) ws -> In (m, w) ws ->
              (sw_finish v <= sw_start w)%Z /\ comes_before (map fst rows) n m).
  { induction 1 as [n m Hd|n m k H1 IH1 H2 IH2]; intros v w Hv Hww.
    - assert (Hle := Hprec n m v w Hd Hv Hww). split; [exact Hle|].
      destruct (T n m v w Hd) as (p & q & r & ER); [apply Hr; exact Hv|apply Hr; exact Hww| |].
      + specialize (Hpos n v Hv). lia.
      + rewrite ER. rewrite map_app. simpl. rewrite map_app. simpl. exists (map fst p), (map fst q), (map fst r). reflexivity.
    - assert (Hm : In m (map fst ws)).
      { clear -H1 Hcl. induction H1; auto. apply (Hcl _ _ H). }
      destruct (Hw m Hm) as (u & Hu). destruct (IH1 v u Hv Hu) as [A1 B1]. destruct (IH2 u w Hu Hww) as [A2 B2].
      specialize (Hpos m u Hu). split; [lia|]. eapply comes_before_trans; eauto. }
  destruct (exists_last (l := rows)) as (r & [n w] & ER).
  { intros ->. apply Permutation_nil in P. subst ws. destruct Hf. }
  assert (Hin : In (n, w) ws) by (apply Hr; rewrite ER; apply in_or_app; right; left; reflexivity).
  assert (En : n = finish).
  { destruct (Hall n) as [H|H]; [apply in_map_iff; exists (n, w); auto|exact H|exfalso].
    destruct (Hcb n finish H w wf Hin Hf) as [_ C]. rewrite ER, map_app in C, Hnr. simpl in C, Hnr. apply comes_before_pos in C; [|exact Hnr].
    destruct C as (_ & Hfin & C). rewrite pos_app in C. assert (Hn : ~ In n (map fst r)) by (apply NoDup_remove_2 in Hnr; rewrite app_nil_r in Hnr; exact Hnr).
    apply existsb_nin in Hn. rewrite Hn in C. simpl in C. rewrite Nat.eqb_refl in C.
    assert (L := pos_lt _ _ Hfin). rewrite app_length in L. simpl in L. lia. }
  subst n. assert (w = wf) by (apply (unique_start ws finish); assumption). subst w.
  exists (sw_finish wf). split; [exact E|]. split.
  - unfold execution_time. rewrite ER, rev_unit. f_equal. specialize (Hpos finish wf Hf). lia.
  - split; [|eauto]. intros m v Hm. destruct (Hall m) as [->|H]; [apply in_map_iff; exists (m, v); auto| |].
    + assert (v = wf) by (apply (unique_start ws finish); assumption). subst. lia.
    + destruct (Hcb m finish H v wf Hm Hf) as [A _]. specialize (Hpos finish wf Hf). lia.
Qed.
Print Assumptions execution_time_is_latest_finish.

(** Without the finish work the execution time can be smaller than the latest finish. *)
Theorem execution_time_needs_finish : exists g ws rows t, acyclic (depends_on g) /\ NoDup (map fst ws)
  /\ (forall n w, In (n, w) ws -> (sw_start w <= sw_finish w)%Z)
  /\ (forall n m v w, depends_on g n m -> In (n, v) ws -> In (m, w) ws -> (sw_finish v <= sw_start w)%Z)
  /\ schedule_rows (fun l => l) g ws = Ends rows /\ execution_time rows = Some t
  /\ exists n w, In (n, w) ws /\ (t < sw_finish w)%Z.
Proof.
  exists (Gr [] (fun _ => px_unit)), [(0, SW 0 9 [] 0); (1, SW 1 2 [] 0)]%nat%Z, [(0, SW 0 9 [] 0); (1, SW 1 2 [] 0)]%nat%Z, 2%Z.
  split; [|split; [repeat constructor; simpl; intuition discriminate|split; [|split; [|split; [vm_compute; reflexivity|split; [reflexivity|]]]]]].
  - assert (H : forall x y, path (depends_on (Gr [] (fun _ => px_unit))) x y -> False) by (induction 1 as [x y (e & [] & _)|]; auto).
    intros x Hx. exact (H x x Hx).
  - intros n w [[= <- <-]|[[= <- <-]|[]]]; simpl; lia.
  - intros n m v w (e & [] & _).
  - exists 0%nat, (SW 0 9 [] 0). split; [left; reflexivity|simpl; lia].
Qed.
Print Assumptions execution_time_needs_finish.

Definition ox_works : works := [(3, SW 4 6 [] 0); (2, SW 4 4 [] 0); (0, SW 0 4 [] 0); (1, SW 4 4 [] 0)]%nat%Z.
Example rows_example :
  acyclic (depends_on px_graph) /\ NoDup (map fst ox_works)
  /\ option_map (map fst) (match schedule_rows (@rev nat) px_graph ox_works with Ends r => Some r | Running => None end)
     = Some [0; 1; 3; 2]%nat.
Proof.
  split; [apply priorities_corrected_example|]. split; [repeat constructor; simpl; intuition discriminate|vm_compute; reflexivity].
Qed.

(** The Schedule made from the works placed over the interval timeline: its execution time
    is the latest finish time. *)
Theorem momentum_execution_time :
  forall g est optimize cs spec apt nodes chains sd s listing finish,
    contractors_ok cs -> estimator_ok est ->
    (forall n c sd s, optimizer_ok (optimize n c sd s)) ->
    (forall n, reqs_ok (reqs_of g n)) -> (forall n, (0 <= volume_of g n)%Z) -> (forall n, spec_ok (spec n)) ->
    (0 <= apt <= TIME_INF)%Z ->
    chains_of g nodes = Some chains -> NoDup (concat chains) -> (Z.of_nat (length nodes) < TIME_INF)%Z ->
    (forall e, In e (g_edges g) -> comes_before (concat chains) (e_from e) (e_to e)) ->
    validator_conditions g est spec nodes chains ->
    momentum_build g est optimize cs spec apt nodes = Done (sd, s) ->
    (forall l, Permutation (listing l) l) ->
    In finish (concat chains) ->
    (forall n, In n (concat chains) -> n = finish \/ path (depends_on g) n finish) ->
    exists rows t, schedule_rows listing g (rev sd) = Ends rows /\ Permutation rows sd /\ execution_time rows = Some t
      /\ (forall n w, In (n, w) sd -> (sw_finish w <= t)%Z) /\ (exists n w, In (n, w) sd /\ sw_finish w = t).
Proof.
  intros g est optimize cs spec apt nodes chains sd s listing finish Hcs Hest Hopt Hreqs Hvol Hspec Hapt Hch Hnd Hlen Htopo HV H Hlist Hf Hall.
  assert (Hpre := momentum_precedence g est optimize cs spec apt nodes chains sd s Hcs Hest Hopt Hreqs Hvol Hspec Hapt Hch Hnd Hlen Htopo HV H).
  destruct (momentum_schedule_feasible g est optimize cs spec apt nodes chains sd s Hcs Hest Hopt Hreqs Hvol Hspec Hapt Hch Hnd Hlen
              (fun e He _ _ => Htopo e He) H) as (F1 & F2 & _).
  assert (Hk : map fst (rev sd) = concat chains) by (rewrite map_rev, F1; apply rev_involutive).
  assert (Hac : acyclic (depends_on g)).
  { apply (topological_acyclic _ (concat chains) Hnd).
    - intros x y (e & He & _ & <- & <-) _ _. apply Htopo. exact He.
    - intros x y (e & He & _ & <- & <-). apply comes_before_in. apply Htopo. exact He. }
  destruct (execution_time_is_latest_finish listing g (rev sd) finish) as (rows & t & E & Et & T1 & T2); auto.
  - rewrite Hk. exact Hnd.
  - intros n w Hin. apply in_rev in Hin. apply (F2 n w Hin).
  - intros n m v w (e & He & _ & <- & <-) Hv Hw. apply in_rev in Hv, Hw. eapply Hpre; eauto.
  - rewrite Hk. exact Hf.
  - intros n m (e & He & _ & <- & <-). rewrite Hk. apply comes_before_in. apply Htopo. exact He.
  - intros n Hn. rewrite Hk in Hn. auto.
  - exists rows, t. split; [exact E|].
    destruct (rows_ordered listing g (rev sd) Hlist Hac) as (rows' & E' & P & _); [rewrite Hk; exact Hnd|].
    rewrite E in E'. injection E' as <-. split; [eapply Permutation_trans; [exact P|apply Permutation_sym, Permutation_rev]|].
    split; [exact Et|]. split.
    + intros n w Hin. apply (T1 n w). apply -> in_rev. exact Hin.
    + destruct T2 as (n & w & Hin & Ew). apply in_rev in Hin. eauto.
Qed.
Print Assumptions momentum_execution_time.

(** All conditions hold for the example of the schedulers. *)
Example momentum_execution_time_example :
  In 5%nat (concat sx_chains) /\
  (forall n, In n (concat sx_chains) -> n = 5%nat \/ path (depends_on sx_graph) n 5%nat) /\
  (exists sd s rows, momentum_build sx_graph vx_est sx_optimize sx_contractors sx_spec 0 sx_nodes = Done (sd, s)
     /\ schedule_rows (fun l => l) sx_graph (rev sd) = Ends rows /\ map fst rows = [0; 1; 3; 2; 4; 5]%nat
     /\ execution_time rows = Some 32%Z).
Proof.
  split; [simpl; auto 10|]. split.
  - assert (H4 : path (depends_on sx_graph) 4 5) by (apply t_step; exists (Ed 4 5 0 FS)%nat%Z; simpl; auto 10).
    assert (H3 : path (depends_on sx_graph) 3 5) by (eapply t_trans; [|exact H4]; apply t_step; exists (Ed 3 4 1 FS)%nat%Z; simpl; auto 10).
    assert (H2 : path (depends_on sx_graph) 2 5) by (eapply t_trans; [|exact H4]; apply t_step; exists (Ed 2 4 0 FS)%nat%Z; simpl; auto 10).
    assert (H1 : path (depends_on sx_graph) 1 5) by (eapply t_trans; [|exact H2]; apply t_step; exists (Ed 1 2 0 IFS)%nat%Z; simpl; auto 10).
    assert (H0 : path (depends_on sx_graph) 0 5) by (eapply t_trans; [|exact H1]; apply t_step; exists (Ed 0 1 0 FS)%nat%Z; simpl; auto 10).
    intros n Hn. simpl in Hn. repeat (destruct Hn as [<-|Hn]; [auto|]). destruct Hn.
  - eexists _, _, _. split; [vm_compute; reflexivity|]. split; [vm_compute; reflexivity|]. split; vm_compute; reflexivity.
Qed.
