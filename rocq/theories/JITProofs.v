(** Lemmas about the release-time timeline. *)
From Coq Require Import ZArith List Bool Lia Arith Permutation.
From Coq Require Import ZifyBool ZifyNat.
From Verif Require Import TimeModel MomentumModel MomentumSpec MomentumHistory MomentumTeamProofs JITModel JITHistory.
Import ListNotations.
Local Open Scope Z_scope.

Definition nonneg (st : stack) : Prop := forall x, In x st -> 0 <= snd x.

Lemma total_accounted st : stack_total st = accounted st.
Proof. induction st as [|[t c] r IH]; simpl; [reflexivity|]. rewrite IH. reflexivity. Qed.

Lemma nonneg_cons x r : nonneg (x :: r) <-> 0 <= snd x /\ nonneg r.
Proof. unfold nonneg. simpl. split; [intros H; split; auto|]. intros [H1 H2] y [<-|Hy]; auto. Qed.
Lemma nonneg_accounted st : nonneg st -> 0 <= accounted st.
Proof. induction st as [|[t c] r IH]; simpl; [lia|]. intros H. apply nonneg_cons in H as [H1 H2]. simpl in H1. specialize (IH H2). lia. Qed.
Lemma released_bounds st t : nonneg st -> 0 <= released st t <= accounted st.
Proof.
  induction st as [|[rt c] r IH]; simpl; [lia|]. intros H. apply nonneg_cons in H as [H1 H2]. simpl in H1.
  specialize (IH H2). destruct (rt <=? t); lia.
Qed.
Lemma released_mono st t t' : nonneg st -> t <= t' -> released st t <= released st t'.
Proof.
  intros H Ht. induction st as [|[rt c] r IH]; simpl; [lia|]. apply nonneg_cons in H as [H1 H2]. simpl in H1.
  specialize (IH H2). destruct (Z.leb_spec rt t), (Z.leb_spec rt t'); lia.
Qed.
Lemma released_before st t x : ordered (x :: st) -> t < fst x -> released (x :: st) t = 0.
Proof.
  intros [H1 H2] Ht. destruct x as [rt c]. simpl in *. destruct (Z.leb_spec rt t); [lia|].
  induction st as [|[rt' c'] r IH]; simpl in *; [reflexivity|].
  assert (rt <= rt') by (apply (H1 (rt', c')); auto).
  destruct (Z.leb_spec rt' t); [lia|]. apply IH; tauto || (intros y Hy; apply H1; auto).
Qed.

(** [grab] on the stack itself finds the least moment with enough released workers. *)
Lemma grab_spec : forall st needed acc, nonneg st -> ordered st -> needed <= accounted st ->
  exists r, grab needed acc st = Some r /\ acc <= r /\ needed <= released st r /\
    (forall t, acc <= t < r -> released st t < needed).
Proof.
  induction st as [|[rt c] st IH]; intros needed acc Hn Ho Hc.
  - simpl in *. destruct (Z.leb_spec needed 0); [|lia]. exists acc. repeat split; lia.
  - cbn [grab]. destruct (Z.leb_spec needed 0) as [H0|H0].
    { exists acc. assert (Hb := released_bounds _ acc Hn). repeat split; lia. }
    apply nonneg_cons in Hn as [Hc0 Hn]. simpl in Hc0. assert (Ho' := Ho). destruct Ho as [Ho1 Ho].
    simpl accounted in Hc. simpl fst in *.
    assert (Htm : acc <= tmax acc rt /\ rt <= tmax acc rt /\ (tmax acc rt = acc \/ tmax acc rt = rt))
      by (unfold tmax; destruct (Z.ltb_spec acc rt); lia).
    destruct (IH (needed - (if needed <? c then needed else c)) (tmax acc rt)) as (r & Hr & H1 & H2 & H3); auto.
    { destruct (Z.ltb_spec needed c); [|lia]. assert (HH := nonneg_accounted _ Hn). lia. }
    exists r. split; [exact Hr|]. split; [lia|]. split.
    + simpl. destruct (Z.leb_spec rt r); [|lia]. assert (HH := released_bounds _ r Hn).
      destruct (Z.ltb_spec needed c); lia.
    + intros t Ht. destruct (Z.lt_ge_cases t rt) as [Hlt|Hge].
      * rewrite (released_before st t (rt, c)) by (auto; simpl; lia). lia.
      * simpl. destruct (Z.leb_spec rt t); [|lia].
        destruct (Z.ltb_spec needed c).
        -- (* the search stops here *)
           replace (needed - needed) with 0 in Hr by lia.
           destruct st as [|y st']; simpl in Hr; injection Hr as <-; lia.
        -- specialize (H3 t ltac:(lia)). lia.
Qed.

Lemma grab_app st st2 : forall needed acc r, grab needed acc st = Some r -> grab needed acc (st ++ st2) = Some r.
Proof.
  induction st as [|[rt c] st IH]; intros needed acc r H; simpl in *.
  - destruct st2 as [|[t2 c2] st2]; simpl; destruct (needed <=? 0); congruence.
  - destruct (needed <=? 0); [exact H|]. apply IH. exact H.
Qed.

Lemma consume_spec : forall st needed, nonneg st -> ordered st -> 0 <= needed <= accounted st -> st <> [] ->
  exists st', consume needed st = Some st' /\ nonneg st' /\ ordered st' /\
    accounted st' = accounted st - needed /\
    (forall y, In y st' -> exists z, In z st /\ fst y = fst z) /\
    (forall t, released st' t >= released st t - needed) /\
    (forall t, needed <= released st t -> released st' t = released st t - needed) /\
    (forall t, released st' t <= released st t).
Proof.
  induction st as [|[rt c] st IH]; intros needed Hn Ho Hc Hne; [congruence|].
  apply nonneg_cons in Hn as [Hc0 Hn]. simpl in Hc0. assert (Ho' := Ho). destruct Ho as [Ho1 Ho].
  simpl accounted in Hc. cbn [consume].
  destruct (Z.leb_spec needed 0) as [H0|H0].
  { exists ((rt, c) :: st). assert (needed = 0) by lia. subst needed.
    split; [reflexivity|]. split; [apply nonneg_cons; auto|]. split; [exact Ho'|].
    split; [lia|]. split; [eauto|]. repeat split; intros; lia. }
  destruct ((needed <? c) || match st with [] => true | _ :: _ => false end) eqn:Eb.
  - exists ((rt, c - needed) :: st). split; [reflexivity|].
    assert (Hcn : needed <= c).
    { destruct (Z.ltb_spec needed c); [lia|]. destruct st; [simpl in Hc; lia|discriminate]. }
    split; [apply nonneg_cons; simpl; auto with zarith|]. split; [split; [exact Ho1|exact Ho]|].
    split; [simpl; lia|]. split.
    { intros y [<-|Hy]; [exists (rt, c)|exists y]; simpl; auto. }
    assert (Hrel : forall t, released ((rt, c - needed) :: st) t = released ((rt, c) :: st) t - (if rt <=? t then needed else 0)).
    { intros t. simpl. destruct (rt <=? t); lia. }
    split; [|split]; intros t; rewrite ?Hrel; destruct (Z.leb_spec rt t) as [Hle|Hgt]; try lia.
    intros Hnd. rewrite (released_before st t (rt, c)) in Hnd by (auto; simpl; lia). lia.
  - apply orb_false_iff in Eb as [Eb1 Eb2].
    assert (Hst : st <> []) by (destruct st; [discriminate|discriminate]).
    destruct (IH (needed - c) Hn Ho ltac:(lia) Hst) as (st' & Hst' & H1 & H2 & H3 & H4 & H5 & H6 & H7).
    exists st'. split; [exact Hst'|]. split; [exact H1|]. split; [exact H2|].
    split; [simpl; lia|]. split.
    { intros y Hy. destruct (H4 y Hy) as (z & Hz & E). exists z. simpl; auto. }
    split; [|split]; intros t; specialize (H5 t); specialize (H7 t); simpl.
    + destruct (Z.leb_spec rt t); lia.
    + intros Hnd. destruct (Z.leb_spec rt t) as [Hle|Hgt].
      * rewrite H6 by lia. lia.
      * assert (E := released_before st t (rt, c) Ho' Hgt). simpl in E. destruct (Z.leb_spec rt t); lia.
    + destruct (Z.leb_spec rt t); lia.
Qed.

Lemma bubble_spec x : forall st, ordered st ->
  ordered (bubble x st) /\ accounted (bubble x st) = snd x + accounted st /\
  (forall y, In y (bubble x st) <-> y = x \/ In y st) /\
  (forall t, released (bubble x st) t = (if fst x <=? t then snd x else 0) + released st t).
Proof.
  destruct x as [xt xc]. induction st as [|[rt c] st IH]; intros Ho; simpl in *.
  - split; [split; [intros y []|exact I]|]. split; [lia|]. split; [intros y; split; intros [E|[]]; auto|]. intros t; lia.
  - destruct Ho as [Ho1 Ho]. destruct (Z.ltb_spec rt xt) as [Hlt|Hge].
    + destruct (IH Ho) as (H1 & H2 & H3 & H4). simpl. split; [split; [|exact H1]|].
      * intros y Hy. apply H3 in Hy as [->|Hy]; [simpl; lia|]. apply Ho1; exact Hy.
      * split; [rewrite H2; simpl; lia|]. split; [intros y; rewrite H3; intuition|].
        intros t. rewrite H4. lia.
    + simpl. split; [split; [|split; [exact Ho1|exact Ho]]|].
      * intros y [<-|Hy]; [simpl; lia|]. specialize (Ho1 y Hy). simpl in *. lia.
      * split; [lia|]. split; [intuition|]. intros t; lia.
Qed.

(** ** One agent *)

(** Invariant: conservation, order, and enough workers accounted as released later than
    [t] for every booking running at [t]. *)
Record stack_inv (cap : Z) (st : stack) : Prop := {
  si_ne : st <> [];
  si_nonneg : nonneg st;
  si_ordered : ordered st;
  si_total : accounted st = cap
}.
Definition covers (bs : list booking) (cap : Z) (st : stack) : Prop :=
  forall t, load bs t <= cap - released st t.

Lemma update_stack_inv cap st ind fin n : stack_inv cap st -> 0 <= n <= cap ->
  exists st', update_stack ind fin n st = Some st' /\ stack_inv cap st'.
Proof.
  intros [H1 H2 H3 H4] Hn. unfold update_stack. destruct ind.
  - eexists. split; [reflexivity|]. rewrite total_accounted. constructor.
    + discriminate.
    + intros x [<-|[]]. simpl. lia.
    + simpl. split; [intros y []|exact I].
    + simpl. lia.
  - destruct (consume_spec st n H2 H3 ltac:(lia) H1) as (st' & -> & A1 & A2 & A3 & A4 & _).
    destruct (bubble_spec (fin, n) st' A2) as (B1 & B2 & B3 & B4).
    eexists. split; [reflexivity|]. constructor.
    + intros E. assert (Hin : In (fin, n) (bubble (fin, n) st')) by (apply B3; auto). rewrite E in Hin. destruct Hin.
    + intros x Hx. apply B3 in Hx as [->|Hx]; [simpl; lia|apply A1; exact Hx].
    + exact B1.
    + rewrite B2, A3. simpl. lia.
Qed.

Lemma last_ge st d x : ordered st -> In x st -> fst x <= fst (last st d).
Proof.
  intros Ho Hx. induction st as [|y st IH]; [destruct Hx|]. destruct Ho as [Ho1 Ho].
  destruct st as [|z st']; [destruct Hx as [->|[]]; simpl; lia|].
  change (last (y :: z :: st') d) with (last (z :: st') d).
  destruct Hx as [->|Hx]; [|apply IH; auto].
  apply Ho1. clear. revert z. induction st' as [|w st IH]; intros z; [left; reflexivity|right; apply IH].
Qed.

Lemma agent_time_spec cap st ind n acc : stack_inv cap st -> 0 <= n <= cap ->
  exists r, agent_time ind n st acc = Some r /\ acc <= r /\
    (ind = false -> n <= released st r /\ forall t, acc <= t < r -> released st t < n) /\
    (ind = true -> (forall x, In x st -> fst x <= r) /\ (r = acc \/ exists x, In x st /\ fst x = r)).
Proof.
  intros [H1 H2 H3 H4] Hn. unfold agent_time. destruct ind.
  - destruct st as [|x st]; [congruence|]. eexists. split; [reflexivity|].
    assert (Hm : acc <= tmax acc (fst (last (x :: st) x)) /\ fst (last (x :: st) x) <= tmax acc (fst (last (x :: st) x))
      /\ (tmax acc (fst (last (x :: st) x)) = acc \/ tmax acc (fst (last (x :: st) x)) = fst (last (x :: st) x)))
      by (unfold tmax; destruct (Z.ltb_spec acc (fst (last (x :: st) x))); lia).
    split; [lia|]. split; [discriminate|]. intros _. split.
    + intros y Hy. assert (HH := last_ge (x :: st) x y H3 Hy). lia.
    + destruct Hm as (_ & _ & Hm). destruct Hm as [Hm|Hm]; [left; exact Hm|right].
      exists (last (x :: st) x). split; [|symmetry; exact Hm].
      clear. revert x. assert (G : forall (l : stack) y d, In (last (y :: l) d) (y :: l)).
      { induction l as [|z l IH]; intros y d; [left; reflexivity|right; apply IH]. }
      intros x. apply G.
  - destruct (grab_spec st n acc H2 H3 ltac:(lia)) as (r & Hr & A1 & A2 & A3).
    exists r. split; [apply grab_app; exact Hr|]. split; [exact A1|]. split; [auto|discriminate].
Qed.

Lemma released_all st t : (forall x, In x st -> fst x <= t) -> released st t = accounted st.
Proof.
  induction st as [|[rt c] r IH]; simpl; intros H; [reflexivity|].
  rewrite IH by auto. assert (rt <= t) by (apply (H (rt, c)); auto). destruct (Z.leb_spec rt t); lia.
Qed.

Lemma update_stack_covers cap st ind fin n bs s0 : stack_inv cap st -> 0 <= n <= cap ->
  covers bs cap st -> s0 <= fin ->
  (ind = false -> n <= released st s0) -> (ind = true -> forall x, In x st -> fst x <= s0) ->
  forall st', update_stack ind fin n st = Some st' -> covers (Bk s0 fin n :: bs) cap st'.
Proof.
  intros [H1 H2 H3 H4] Hn Hcov Hsf Hdep Hind st' Hu t. unfold update_stack in Hu.
  specialize (Hcov t). simpl load. unfold active. simpl b_start; simpl b_end; simpl b_count.
  destruct ind.
  - injection Hu as <-. rewrite total_accounted, H4. cbn [released].
    specialize (Hind eq_refl). assert (Hb := released_bounds st t H2).
    destruct (Z.leb_spec s0 t) as [Hst|Hst].
    + rewrite (released_all st t) in Hcov by (intros x Hx; apply Hind in Hx; lia).
      destruct (Z.ltb_spec t fin), (Z.leb_spec fin t); simpl; lia.
    + simpl. destruct (Z.leb_spec fin t); lia.
  - destruct (consume_spec st n H2 H3 ltac:(lia) H1) as (st1 & E & A1 & A2 & A3 & A4 & A5 & A6 & A7).
    rewrite E in Hu. injection Hu as <-.
    destruct (bubble_spec (fin, n) st1 A2) as (_ & _ & _ & B4). rewrite B4. simpl fst; simpl snd.
    specialize (Hdep eq_refl). specialize (A5 t). specialize (A6 t). specialize (A7 t).
    destruct (Z.leb_spec s0 t) as [Hst|Hst].
    + assert (Hrel := released_mono st s0 t H2 Hst). rewrite A6 by lia.
      destruct (Z.ltb_spec t fin), (Z.leb_spec fin t); simpl; lia.
    + simpl. destruct (Z.leb_spec fin t); lia.
Qed.

(** ** The whole timeline *)

Lemma jt_get_set_same tl a s : jt_get tl a <> None -> jt_get (jt_set tl a s) a = Some s.
Proof.
  induction tl as [|[b s0] r IH]; simpl; [congruence|].
  destruct (agent_eqb b a) eqn:E; intros H; simpl; rewrite E; auto.
Qed.
Lemma jt_get_set_other tl a b s : a <> b -> jt_get (jt_set tl a s) b = jt_get tl b.
Proof.
  intros Hab. induction tl as [|[x s0] r IH]; simpl; [reflexivity|].
  destruct (agent_eqb x a) eqn:E; simpl.
  - apply agent_eqb_iff in E. subst x. rewrite (agent_eqb_neq a b Hab). reflexivity.
  - destruct (agent_eqb x b); auto.
Qed.

Definition jinv (p : pool) (tl : jtimeline) : Prop :=
  forall a, match capacity p a with
            | Some cap => exists st, jt_get tl a = Some st /\ stack_inv cap st
            | None => jt_get tl a = None
            end.
Definition jcovers (p : pool) (h : history) (tl : jtimeline) : Prop :=
  forall a cap st, capacity p a = Some cap -> jt_get tl a = Some st -> covers (bookings_of h a) cap st.

Lemma jit_init_inv p : pool_ok p -> jinv p (jit_init p) /\ jcovers p [] (jit_init p).
Proof.
  intros Hp. split.
  - intros a. induction p as [|[[c k] n] r IH]; simpl; [reflexivity|].
    unfold agent_eqb. simpl. destruct (Nat.eqb c (fst a) && Nat.eqb k (snd a)).
    + exists [(0, n)]. split; [reflexivity|]. assert (0 <= n) by (apply (Hp (c, k)); left; reflexivity).
      constructor; [discriminate| | |simpl; lia].
      * intros x [<-|[]]; simpl; lia.
      * simpl. split; [intros y []|exact I].
    + apply IH. intros a' n' H. apply (Hp a'). right; exact H.
  - intros a cap st Hc Hg t. simpl.
    assert (Hst : st = [(0, cap)]).
    { clear Hp. revert Hc Hg. induction p as [|[[c k] n] r IH]; simpl; [discriminate|].
      unfold agent_eqb. simpl. destruct (Nat.eqb c (fst a) && Nat.eqb k (snd a)); [congruence|exact IH]. }
    subst st. simpl. assert (0 <= cap).
    { clear Hg. revert Hc. induction p as [|[[c k] n] r IH]; simpl; [discriminate|].
      destruct (Nat.eqb c (fst a) && Nat.eqb k (snd a)).
      - intros [= <-]. apply (Hp (c, k)). left; reflexivity.
      - apply IH. intros a' n' H. apply (Hp a'). right; exact H. }
    destruct (0 <=? t); lia.
Qed.

Lemma find_agents_spec p tl ind team : jinv p tl -> team_within p team -> forall acc,
  exists r, find_agents_time ind (to_workers team) tl acc = Some r /\ acc <= r /\
    (ind = false -> forall a n st, In (a, n) team -> jt_get tl a = Some st -> n <= released st r) /\
    (ind = true -> forall a n st, In (a, n) team -> jt_get tl a = Some st -> forall x, In x st -> fst x <= r) /\
    (ind = false -> forall t, acc <= t < r -> exists a n st, In (a, n) team /\ jt_get tl a = Some st /\ released st t < n).
Proof.
  intros Hi [_ Hw]. induction team as [|[[c k] n] team IH]; intros acc.
  - simpl. exists acc. split; [reflexivity|]. split; [lia|]. split; [intros _ a n st []|]. split; [intros _ a n st []|]. intros _ t Ht; lia.
  - cbn [to_workers map find_agents_time w_contractor w_kind w_count fst snd].
    destruct (Hw (c, k) n (or_introl eq_refl)) as (cap & Hc & Hn).
    assert (Ha := Hi (c, k)). rewrite Hc in Ha. destruct Ha as (st & Hg & Hst). rewrite Hg.
    destruct (agent_time_spec cap st ind n acc Hst Hn) as (r1 & -> & A1 & A2 & A3).
    destruct (IH (fun a m Hin => Hw a m (or_intror Hin)) r1) as (r & Hr & B1 & B2 & B3 & B4).
    exists r. split; [exact Hr|]. split; [lia|]. split; [|split].
    + intros E a m st' [[= <- <-]|Hin] Hg'; [|eapply B2; eauto].
      assert (st' = st) by congruence. subst st'. destruct (A2 E) as [A2' _].
      assert (HH := released_mono st r1 r (si_nonneg _ _ Hst) B1). lia.
    + intros E a m st' [[= <- <-]|Hin] Hg' x Hx; [|eapply B3; eauto].
      assert (st' = st) by congruence. subst st'. destruct (A3 E) as [A3' _]. specialize (A3' x Hx). lia.
    + intros E t Ht. destruct (Z.lt_ge_cases t r1) as [Hlt|Hge].
      * exists (c, k), n, st. destruct (A2 E) as [_ A2']. split; [left; reflexivity|]. split; [exact Hg|]. apply A2'. lia.
      * destruct (B4 E t ltac:(lia)) as (a & m & st' & Hin & Hg' & Hl). exists a, m, st'. split; [right; exact Hin|]. auto.
Qed.

(** One update; [h] is the ghost history. *)
Lemma jit_update_spec p ind fin s0 : forall team tl,
  jinv p tl -> team_within p team ->
  exists tl', jit_update ind fin (to_workers team) tl = Some tl' /\ jinv p tl' /\
    (forall a, ~ In a (map fst team) -> jt_get tl' a = jt_get tl a) /\
    (forall h, jcovers p h tl -> s0 <= fin ->
       (ind = false -> forall a n st, In (a, n) team -> jt_get tl a = Some st -> n <= released st s0) ->
       (ind = true -> forall a n st, In (a, n) team -> jt_get tl a = Some st -> forall x, In x st -> fst x <= s0) ->
       jcovers p (map (fun w => (fst w, Bk s0 fin (snd w))) team ++ h) tl').
Proof.
  induction team as [|[[c k] n] team IH]; intros tl Hi [Hnd Hw].
  - simpl. exists tl. split; [reflexivity|]. split; [exact Hi|]. split; [reflexivity|]. intros h Hcov _ _ _. exact Hcov.
  - cbn [to_workers map jit_update w_contractor w_kind w_count fst snd] in *.
    inversion Hnd as [|? ? Hni Hnd']; subst.
    destruct (Hw (c, k) n (or_introl eq_refl)) as (cap & Hc & Hn).
    assert (Ha := Hi (c, k)). rewrite Hc in Ha. destruct Ha as (st & Hg & Hst). rewrite Hg.
    destruct (update_stack_inv cap st ind fin n Hst Hn) as (st' & Hu & Hst'). rewrite Hu.
    set (tl1 := jt_set tl (c, k) st').
    assert (Hi1 : jinv p tl1).
    { intros a. destruct (agent_eqb (c, k) a) eqn:E.
      - apply agent_eqb_iff in E. subst a. rewrite Hc. exists st'. split; [apply jt_get_set_same; congruence|exact Hst'].
      - assert (Hne : (c, k) <> a) by (intros E'; rewrite E', agent_eqb_refl in E; discriminate).
        unfold tl1. rewrite jt_get_set_other by exact Hne. apply Hi. }
    destruct (IH tl1 Hi1 (conj Hnd' (fun a m Hin => Hw a m (or_intror Hin)))) as (tl' & Hu' & Hi' & Hoth & Hcovn).
    exists tl'. split; [exact Hu'|]. split; [exact Hi'|]. split.
    { intros a Hna. simpl in Hna. rewrite Hoth by tauto. apply jt_get_set_other. intros E; apply Hna; auto. }
    intros h Hcov Hsf Hdep Hind.
    set (h1 := ((c, k), Bk s0 fin n) :: h).
    assert (Hcov1 : jcovers p h1 tl1).
    { intros a cap' sta Hca Hga. destruct (agent_eqb (c, k) a) eqn:E.
      - apply agent_eqb_iff in E. subst a. unfold tl1 in Hga. rewrite jt_get_set_same in Hga by congruence.
        injection Hga as <-. assert (cap' = cap) by congruence. subst cap'.
        unfold h1. simpl. rewrite !Nat.eqb_refl. simpl.
        apply (update_stack_covers cap st ind fin n _ s0 Hst Hn (Hcov _ _ _ Hc Hg) Hsf) with (st' := st'); auto.
        + intros E. apply (Hdep E (c, k) n st); simpl; auto.
        + intros E. apply (Hind E (c, k) n st); simpl; auto.
      - assert (Hne : (c, k) <> a) by (intros E'; rewrite E', agent_eqb_refl in E; discriminate).
        unfold tl1 in Hga. rewrite jt_get_set_other in Hga by exact Hne.
        unfold h1. simpl. unfold agent_eqb in E. simpl in E. rewrite E. eapply Hcov; eauto. }
    assert (Hgoth : forall a m sta, In (a, m) team -> jt_get tl1 a = Some sta -> jt_get tl a = Some sta).
    { intros a m sta Hin Hga. unfold tl1 in Hga. rewrite jt_get_set_other in Hga; [exact Hga|].
      intros E. apply Hni. rewrite E. apply in_map_iff. exists (a, m). auto. }
    assert (Hfin := Hcovn h1 Hcov1 Hsf
      (fun E a m sta Hin Hga => Hdep E a m sta (or_intror Hin) (Hgoth a m sta Hin Hga))
      (fun E a m sta Hin Hga => Hind E a m sta (or_intror Hin) (Hgoth a m sta Hin Hga))).
    intros a cap' sta Hca Hga t. specialize (Hfin a cap' sta Hca Hga t).
    simpl map. erewrite load_perm; [exact Hfin|]. apply bookings_of_perm. apply Permutation_middle.
Qed.

Definition jrequest_ok (p : pool) (r : jrequest) : Prop :=
  jr_start r <= jr_finish r /\ team_within p (jr_team r).

Lemma run_updates_inv p : forall rs tl, jinv p tl -> Forall (fun r => team_within p (jr_team r)) rs ->
  exists tl', run_updates rs tl = Some tl' /\ jinv p tl'.
Proof.
  induction rs as [|r rs IH]; intros tl Hi Hok; simpl; [eauto|].
  inversion Hok; subst. destruct (jit_update_spec p (jr_independent r) (jr_finish r) 0 (jr_team r) tl Hi H1) as (tl1 & -> & Hi1 & _).
  apply IH; auto.
Qed.

Lemma run_placed_covers p : forall rs h tl tl', jinv p tl -> jcovers p h tl -> Forall (jrequest_ok p) rs ->
  run_placed rs tl = Some tl' -> jinv p tl' /\ jcovers p (all_jbooked rs ++ h) tl'.
Proof.
  induction rs as [|r rs IH]; intros h tl tl' Hi Hcov Hok Hrun.
  - simpl in Hrun. injection Hrun as <-. split; [exact Hi|exact Hcov].
  - cbn [run_placed] in Hrun. inversion Hok as [|? ? [Hsf Hw] Hok']; subst.
    destruct (find_agents_spec p tl (jr_independent r) (jr_team r) Hi Hw (jr_bound r)) as (ans & Hans & A1 & A2 & A3 & _).
    rewrite Hans in Hrun. destruct (Z.leb_spec ans (jr_start r)) as [Hle|]; [|discriminate].
    destruct (jit_update_spec p (jr_independent r) (jr_finish r) (jr_start r) (jr_team r) tl Hi Hw) as (tl1 & Hu & Hi1 & _ & Hc1).
    rewrite Hu in Hrun.
    assert (Hcov1 : jcovers p (jbooked r ++ h) tl1).
    { unfold jbooked. apply Hc1; auto.
      - intros E a n st Hin Hg. specialize (A2 E a n st Hin Hg).
        specialize (Hi a). destruct (capacity p a) as [cap|]; [|congruence]. destruct Hi as (st' & Hg' & Hst).
        assert (st' = st) by congruence. subst st'.
        assert (HH := released_mono st ans (jr_start r) (si_nonneg _ _ Hst) Hle). lia.
      - intros E a n st Hin Hg x Hx. specialize (A3 E a n st Hin Hg x Hx). lia. }
    destruct (IH _ _ _ Hi1 Hcov1 Hok' Hrun) as [Hi2 Hc2]. split; [exact Hi2|].
    intros a cap st Hc Hg t. specialize (Hc2 a cap st Hc Hg t).
    erewrite load_perm; [exact Hc2|]. apply bookings_of_perm.
    unfold all_jbooked. simpl. rewrite !app_assoc. apply Permutation_app_tail. apply Permutation_app_comm.
Qed.

Lemma jit_safe p rs tl a cap t : pool_ok p -> Forall (jrequest_ok p) rs ->
  run_placed rs (jit_init p) = Some tl -> capacity p a = Some cap -> busy (all_jbooked rs) a t <= cap.
Proof.
  intros Hp Hok Hrun Hc. destruct (jit_init_inv p Hp) as [Hi Hcov].
  destruct (run_placed_covers p rs [] _ _ Hi Hcov Hok Hrun) as [Hi' Hcov'].
  rewrite app_nil_r in Hcov'. specialize (Hi' a). rewrite Hc in Hi'. destruct Hi' as (st & Hg & Hst).
  specialize (Hcov' a cap st Hc Hg t). assert (HH := released_bounds st t (si_nonneg _ _ Hst)). unfold busy. lia.
Qed.

Lemma jit_conserves p rs : pool_ok p -> Forall (fun r => team_within p (jr_team r)) rs ->
  exists tl, run_updates rs (jit_init p) = Some tl /\
    forall a cap, capacity p a = Some cap ->
      exists st, jt_get tl a = Some st /\ accounted st = cap /\ (forall g, In g st -> 0 <= snd g) /\ ordered st.
Proof.
  intros Hp Hok. destruct (jit_init_inv p Hp) as [Hi _].
  destruct (run_updates_inv p rs _ Hi Hok) as (tl & Hrun & Hi'). exists tl. split; [exact Hrun|].
  intros a cap Hc. specialize (Hi' a). rewrite Hc in Hi'. destruct Hi' as (st & Hg & [H1 H2 H3 H4]).
  exists st. auto.
Qed.

Lemma jit_earliest p rs tl team lb : pool_ok p -> Forall (fun r => team_within p (jr_team r)) rs ->
  run_updates rs (jit_init p) = Some tl -> team_within p team ->
  exists r, find_agents_time false (to_workers team) tl lb = Some r /\ lb <= r /\
    (forall a n, In (a, n) team -> exists st, jt_get tl a = Some st /\ n <= released st r) /\
    (forall t, lb <= t < r -> exists a n st, In (a, n) team /\ jt_get tl a = Some st /\ released st t < n).
Proof.
  intros Hp Hok Hrun Hw. destruct (jit_init_inv p Hp) as [Hi _].
  destruct (run_updates_inv p rs _ Hi Hok) as (tl' & Hrun' & Hi'). assert (tl' = tl) by congruence. subst tl'.
  destruct (find_agents_spec p tl false team Hi' Hw lb) as (r & Hr & A1 & A2 & _ & A4).
  exists r. split; [exact Hr|]. split; [exact A1|]. split; [|apply A4; reflexivity].
  intros a n Hin. destruct (proj2 Hw a n Hin) as (cap & Hc & _). assert (Ha := Hi' a). rewrite Hc in Ha.
  destruct Ha as (st & Hg & _). exists st. split; [exact Hg|]. eapply A2; eauto.
Qed.

Lemma jit_earliest_independent p rs tl team lb : pool_ok p -> Forall (fun r => team_within p (jr_team r)) rs ->
  run_updates rs (jit_init p) = Some tl -> team_within p team ->
  exists r, find_agents_time true (to_workers team) tl lb = Some r /\ lb <= r /\
    (forall a n, In (a, n) team -> exists st, jt_get tl a = Some st /\ forall g, In g st -> fst g <= r).
Proof.
  intros Hp Hok Hrun Hw. destruct (jit_init_inv p Hp) as [Hi _].
  destruct (run_updates_inv p rs _ Hi Hok) as (tl' & Hrun' & Hi'). assert (tl' = tl) by congruence. subst tl'.
  destruct (find_agents_spec p tl true team Hi' Hw lb) as (r & Hr & A1 & _ & A3 & _).
  exists r. split; [exact Hr|]. split; [exact A1|].
  intros a n Hin. destruct (proj2 Hw a n Hin) as (cap & Hc & _). assert (Ha := Hi' a). rewrite Hc in Ha.
  destruct Ha as (st & Hg & _). exists st. split; [exact Hg|]. eapply A3; eauto.
Qed.

Lemma jit_workers_free_spec p rs tl team start : pool_ok p -> Forall (fun r => team_within p (jr_team r)) rs ->
  run_updates rs (jit_init p) = Some tl -> team_within p team -> 0 <= start ->
  exists b, jit_workers_free false (to_workers team) start tl = Some b /\
    (b = true <-> forall a n, In (a, n) team -> exists st, jt_get tl a = Some st /\ n <= released st start).
Proof.
  intros Hp Hok Hrun Hw Hs. destruct (jit_earliest p rs tl team 0 Hp Hok Hrun Hw) as (r & Hr & A1 & A2 & A3).
  unfold jit_workers_free. rewrite Hr. eexists. split; [reflexivity|].
  assert (Hi' : jinv p tl).
  { destruct (jit_init_inv p Hp) as [Hi _]. destruct (run_updates_inv p rs _ Hi Hok) as (tl' & Hrun' & Hi').
    assert (E : tl' = tl) by congruence. rewrite <- E. exact Hi'. }
  rewrite Z.leb_le. split.
  - intros Hle a n Hin. destruct (A2 a n Hin) as (st & Hg & Hn). exists st. split; [exact Hg|].
    assert (Ha := Hi' a). destruct (capacity p a) as [cap|]; [|congruence]. destruct Ha as (st' & Hg' & Hst).
    assert (st' = st) by congruence. subst st'.
    assert (HH := released_mono st r start (si_nonneg _ _ Hst) Hle). lia.
  - intros H. destruct (Z.le_gt_cases r start) as [|Hgt]; [assumption|]. exfalso.
    destruct (A3 start ltac:(lia)) as (a & n & st & Hin & Hg & Hl).
    destruct (H a n Hin) as (st' & Hg' & Hn). assert (st' = st) by congruence. subst. lia.
Qed.
