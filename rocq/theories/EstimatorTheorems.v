(** C34: the default estimator. *)
From Coq Require Import ZArith List Bool QArith Qround Lia Psatz.
From Verif Require Import TimeModel MomentumModel JITModel MomentumSpec GraphModel ScheduleModel ScheduleSpec ContractorProofs TeamProofs
  ContractorTheorems ScheduleInv ScheduleTheorems JitScheduleTheorems Digraph HeadModel HeadProofs HeadTheorems PriorityModel
  ValidationModel ValidationTheorems PipelineModel PipelineTheorems ResourceModel
  ScheduleProofs ResourceTheorems EstimatorModel.
Import ListNotations.
Local Open Scope Z_scope.

(** ** Specification *)
(** The i-th of [n] workers sharing a job for at most [m] contributes 1 - (i/m)^2 of a
    worker; the sum over i < n. *)
Fixpoint shared_effort (n : nat) (m : Z) : Q :=
  match n with
  | O => 0
  | S i => shared_effort i m + (1 - inject_Z (Z.of_nat i ^ 2) / inject_Z (m ^ 2))
  end%Q.
(** What [n] workers of productivity [p] do per unit of time when at most [m] can be
    employed: the code counts the number of workers twice, once as such and once in the
    shared effort. *)
Definition output (p : Q) (n : nat) (m : Z) : Q := (p * inject_Z (Z.of_nat n) * shared_effort n m)%Q.

(** Some profession that the work cannot do without is missing or has too few workers. *)
Definition understaffed (reqs : list req) (team : list worker) : Prop :=
  exists r, In r reqs /\ 0 < r_min r /\
    forall w, In w team -> w_kind w = r_kind r -> w_count w < r_min r.
(** The productivity table knows the kinds that the work needs and gives them positive
    productivity at each contractor of the team. *)
Definition productive (table : productivities) (reqs : list req) (team : list worker) : Prop :=
  forall r, In r reqs -> exists f, table (r_kind r) = Some f /\
    forall w, In w team -> (0 < f (w_contractor w))%Q.
(** No profession has more workers than the work can employ. *)
Definition not_overstaffed (reqs : list req) (team : list worker) : Prop :=
  forall r w, In r reqs -> In w team -> w_kind w = r_kind r -> w_count w <= r_max r.
(** In [x] units of time the team does the volume of every requirement. *)
Definition done_in (table : productivities) (reqs : list req) (team : list worker) (x : Z) : Prop :=
  forall r w f, In r reqs -> 0 < r_min r -> In w team -> w_kind w = r_kind r -> table (r_kind r) = Some f ->
    (inject_Z (r_volume r) <= inject_Z x * output (f (w_contractor w)) (Z.to_nat (w_count w)) (r_max r))%Q.

(** ** Proofs *)
Lemma name2worker_some team k w : name2worker team k = Some w -> In w team /\ w_kind w = k.
Proof.
  induction team as [|v r IH]; simpl; [discriminate|].
  destruct (name2worker r k) as [w'|]; [intros [= <-]; destruct (IH eq_refl); auto|].
  destruct (Nat.eqb_spec (w_kind v) k); [intros [= <-]; auto|discriminate].
Qed.
Lemma name2worker_none team k : name2worker team k = None -> forall w, In w team -> w_kind w <> k.
Proof.
  induction team as [|v r IH]; simpl; [tauto|].
  destruct (name2worker r k) as [w'|]; [discriminate|].
  destruct (Nat.eqb_spec (w_kind v) k) as [E|E]; [discriminate|]. intros _ w [<-|H]; auto.
Qed.
Lemma nodup_kind team w w' : NoDup (map w_kind team) -> In w team -> In w' team -> w_kind w = w_kind w' -> w = w'.
Proof.
  induction team as [|v r IH]; simpl; [tauto|]. intros H. inversion H as [|? ? H1 H2]; subst.
  intros [<-|Hw] [<-|Hw'] E; auto.
  - exfalso. apply H1. rewrite E. apply in_map, Hw'.
  - exfalso. apply H1. rewrite <- E. apply in_map, Hw.
Qed.
Lemma name2worker_in team k w : NoDup (map w_kind team) -> In w team -> w_kind w = k -> name2worker team k = Some w.
Proof.
  intros Hnd Hw Hk. destruct (name2worker team k) as [w'|] eqn:E.
  - apply name2worker_some in E as [E1 E2]. f_equal. apply (nodup_kind team); congruence.
  - exfalso. eapply name2worker_none; eauto.
Qed.

Lemma shared_effort_closed n m : m <> 0 ->
  (shared_effort n m == inject_Z (-2 * Z.of_nat n ^ 3 + 3 * Z.of_nat n ^ 2 + (6 * m ^ 2 - 1) * Z.of_nat n) / inject_Z (6 * m ^ 2))%Q.
Proof.
  intros Hm. assert (Hq : ~ (inject_Z m == 0)%Q).
  { intros E. apply Hm. unfold Qeq in E. simpl in E. lia. }
  induction n as [|n IH].
  - simpl shared_effort. change (Z.of_nat 0) with 0. replace (-2 * 0 ^ 3 + 3 * 0 ^ 2 + (6 * m ^ 2 - 1) * 0) with 0 by lia.
    change (inject_Z 0) with 0%Q. unfold Qdiv. ring.
  - cbn [shared_effort]. rewrite IH, Nat2Z.inj_succ. set (k := Z.of_nat n). unfold Z.succ.
    replace (-2 * (k + 1) ^ 3 + 3 * (k + 1) ^ 2 + (6 * m ^ 2 - 1) * (k + 1)) with
      (-2 * (k * k * k) + - 3 * (k * k) - k + 6 * (m * m) * (k + 1)) by ring.
    replace (-2 * k ^ 3 + 3 * k ^ 2 + (6 * m ^ 2 - 1) * k) with (-2 * (k * k * k) + 3 * (k * k) + (6 * (m * m) - 1) * k) by ring.
    replace (6 * m ^ 2) with (6 * (m * m)) by ring. replace (m ^ 2) with (m * m) by ring. replace (k ^ 2) with (k * k) by ring.
    unfold Z.sub. repeat (rewrite ?inject_Z_plus, ?inject_Z_mult, ?inject_Z_opp).
    change (inject_Z 6) with 6%Q. change (inject_Z 3) with 3%Q. change (inject_Z (-2)) with (-2)%Q. change (inject_Z (-3)) with (-3)%Q.
    change (inject_Z 1) with 1%Q. field. exact Hq.
Qed.

(** The output of a worker entry in integers: p * n * c / (6 m^2). *)
Definition cubic (n m : Z) : Z := -2 * n ^ 3 + 3 * n ^ 2 + (6 * m ^ 2 - 1) * n.
Lemma cubic_pos n m : 1 <= n <= m -> 0 < cubic n m.
Proof. unfold cubic. intros H. replace (-2 * n ^ 3 + 3 * n ^ 2 + (6 * m ^ 2 - 1) * n) with (n * (6 * (m * m) - 2 * (n * n) + 3 * n - 1)) by ring.
  assert (n * n <= m * m) by nia. nia. Qed.
Lemma cubic_mono n m : 1 <= n < m -> n * cubic n m <= (n + 1) * cubic (n + 1) m.
Proof.
  intros H. assert (0 < cubic (n + 1) m) by (apply cubic_pos; lia).
  assert (cubic n m <= cubic (n + 1) m); [|nia].
  unfold cubic. assert (n * n <= m * m) by nia.
  replace (-2 * (n + 1) ^ 3 + 3 * (n + 1) ^ 2 + (6 * m ^ 2 - 1) * (n + 1)) with
    (-2 * n ^ 3 + 3 * n ^ 2 + (6 * m ^ 2 - 1) * n + 6 * (m * m - n * n)) by ring. lia.
Qed.
Lemma cubic_le n n' m : 1 <= n <= n' -> n' <= m -> n * cubic n m <= n' * cubic n' m.
Proof.
  intros H H'. replace n' with (n + Z.of_nat (Z.to_nat (n' - n))) by lia.
  assert (Hk : n + Z.of_nat (Z.to_nat (n' - n)) <= m) by lia. revert Hk. generalize (Z.to_nat (n' - n)) as k.
  induction k as [|k IH]; intros Hk; [rewrite Z.add_0_r; lia|].
  rewrite Nat2Z.inj_succ in *. etransitivity; [apply IH; lia|].
  replace (n + Z.succ (Z.of_nat k)) with (n + Z.of_nat k + 1) by lia. apply cubic_mono. lia.
Qed.
Lemma output_closed p n m : 1 <= n -> m <> 0 ->
  (output p (Z.to_nat n) m == p * (inject_Z (n * cubic n m) / inject_Z (6 * m ^ 2)))%Q.
Proof.
  intros Hn Hm. unfold output. rewrite shared_effort_closed by exact Hm. rewrite Z2Nat.id by lia.
  fold (cubic n m). rewrite (inject_Z_mult n). unfold Qdiv. ring.
Qed.
Lemma six_pos m : m <> 0 -> (0 < inject_Z (6 * m ^ 2))%Q.
Proof. intros H. change 0%Q with (inject_Z 0). rewrite <- Zlt_Qlt. nia. Qed.
Lemma output_pos p n m : (0 < p)%Q -> 1 <= n <= m -> (0 < output p (Z.to_nat n) m)%Q.
Proof.
  intros Hp H. rewrite output_closed by lia. apply Qmult_lt_0_compat; [exact Hp|].
  unfold Qdiv. apply Qmult_lt_0_compat; [|apply Qinv_lt_0_compat, six_pos; lia].
  change 0%Q with (inject_Z 0). rewrite <- Zlt_Qlt. assert (A := cubic_pos n m H). nia.
Qed.
Lemma output_mono p n n' m : (0 <= p)%Q -> 1 <= n <= n' -> n' <= m -> (output p (Z.to_nat n) m <= output p (Z.to_nat n') m)%Q.
Proof.
  intros Hp H H'. rewrite !output_closed by lia.
  rewrite !(Qmult_comm p). apply Qmult_le_compat_r; [|exact Hp].
  unfold Qdiv. apply Qmult_le_compat_r; [rewrite <- Zle_Qle; apply cubic_le; lia|].
  apply Qlt_le_weak, Qinv_lt_0_compat, six_pos. lia.
Qed.
Lemma output_one p m : m <> 0 -> (output p 1 m == p)%Q.
Proof.
  intros H. change 1%nat with (Z.to_nat 1). rewrite output_closed by lia. unfold cubic.
  replace (1 * (-2 * 1 ^ 3 + 3 * 1 ^ 2 + (6 * m ^ 2 - 1) * 1)) with (6 * m ^ 2) by ring.
  assert (P := six_pos m H). field. intros E. rewrite E in P. apply (Qlt_irrefl _ P).
Qed.

Lemma productivity_output table w m f : table (w_kind w) = Some f -> 1 <= w_count w -> m <> 0 ->
  exists q, get_productivity table (Some w) m = Some q /\ (q == output (f (w_contractor w)) (Z.to_nat (w_count w)) m)%Q.
Proof.
  intros Hf Hn Hm. unfold get_productivity, communication_coefficient. rewrite Hf.
  destruct (Z.eqb_spec m 0) as [E|_]; [contradiction|]. eexists. split; [reflexivity|].
  rewrite output_closed by assumption. fold (cubic (w_count w) m). rewrite (inject_Z_mult (w_count w)). unfold Qdiv. ring.
Qed.

Lemma ceil_le q x : Qceiling q <= x <-> (q <= inject_Z x)%Q.
Proof.
  split; intros H.
  - eapply Qle_trans; [apply Qle_ceiling|]. rewrite <- Zle_Qle. exact H.
  - apply Qceiling_resp_le in H. rewrite Qceiling_Z in H. exact H.
Qed.
Lemma quotient_le v q x : (0 < q)%Q -> ((inject_Z v / q <= inject_Z x) <-> (inject_Z v <= inject_Z x * q))%Q.
Proof.
  intros Hq. split; intros H.
  - apply Qmult_le_compat_r with (z := q) in H; [|apply Qlt_le_weak, Hq].
    assert (E : (inject_Z v / q * q == inject_Z v)%Q); [|rewrite E in H; exact H].
    field. intros E. rewrite E in Hq. apply (Qlt_irrefl _ Hq).
  - apply Qle_shift_div_r; assumption.
Qed.
Lemma set_time_le z x : - TIME_INF <= x < TIME_INF -> (set_time z <= x <-> z <= x).
Proof. intros H. unfold TIME_INF in *. destruct (set_time_cases z) as [[-> ?]|[[? ->]|[? ->]]]; unfold TIME_INF in *; lia. Qed.

Lemma estimate_loop_range table team : forall reqs times t, times <= TIME_INF ->
  estimate_loop table team reqs times = Some t -> 0 <= t <= TIME_INF.
Proof.
  assert (I0 : 0 <= TIME_INF) by (unfold TIME_INF; lia).
  induction reqs as [|r rest IH]; intros times t Ht; cbn [estimate_loop].
  - intros [= <-]. rewrite tmax_spec. lia.
  - destruct (r_min r =? 0); [apply IH; exact Ht|].
    destruct (_ <? r_min r); [intros [= <-]; unfold time_inf; split; [vm_compute; discriminate|apply set_time_range]|].
    destruct (get_productivity _ _ _) as [q|]; [|discriminate].
    destruct (Qeq_bool q 0); [intros [= <-]; unfold time_inf; split; [vm_compute; discriminate|apply set_time_range]|].
    apply IH. rewrite tmax_spec. assert (A := set_time_range (Qceiling (inject_Z (r_volume r) / q))). lia.
Qed.
Lemma estimate_range table reqs team t : estimate_time table reqs team = Some t -> 0 <= t <= TIME_INF.
Proof.
  destruct team as [|w team]; [intros [= <-]; unfold TIME_INF; lia|]. apply estimate_loop_range. unfold TIME_INF; lia.
Qed.

Lemma estimate_loop_spec table team : NoDup (map w_kind team) -> forall reqs times, 0 <= times <= TIME_INF ->
  (forall r, In r reqs -> 0 <= r_min r <= r_max r) ->
  productive table reqs team -> not_overstaffed reqs team ->
  exists t, estimate_loop table team reqs times = Some t /\ 0 <= t <= TIME_INF /\
    (understaffed reqs team -> t = TIME_INF) /\
    (~ understaffed reqs team -> forall x, 0 <= x < TIME_INF -> (t <= x <-> times <= x /\ done_in table reqs team x)).
Proof.
  intros Hnd. assert (I0 : 0 <= TIME_INF) by (unfold TIME_INF; lia).
  induction reqs as [|r rest IH]; intros times Ht Hr Hp Ho; cbn [estimate_loop].
  - exists (tmax times 0). rewrite tmax_spec. split; [reflexivity|]. split; [lia|]. split.
    + intros (r & [] & _).
    + intros _ x Hx. split; [|lia]. intros H. split; [lia|]. intros r w f [].
  - assert (Hp' : productive table rest team) by (intros x Hx; apply Hp; right; exact Hx).
    assert (Ho' : not_overstaffed rest team) by (intros x w Hx; apply Ho; right; exact Hx).
    assert (Hr' : forall x, In x rest -> 0 <= r_min x <= r_max x) by (intros x Hx; apply Hr; right; exact Hx).
    destruct (Hr r (or_introl eq_refl)) as [R1 R2].
    destruct (Z.eqb_spec (r_min r) 0) as [E0|E0].
    + destruct (IH times Ht Hr' Hp' Ho') as (t & T1 & T2 & T3 & T4). exists t.
      split; [exact T1|]. split; [exact T2|]. split.
      * intros (r' & [<-|Hr1] & Hm & Hu); [lia|]. apply T3. exists r'. auto.
      * intros Hu x Hx. rewrite T4; [|intros (r' & Hr1 & H2); apply Hu; exists r'; split; [right; exact Hr1|exact H2]|exact Hx].
        split; intros [H1 H2]; (split; [exact H1|]); intros r' w f Hin Hm.
        -- destruct Hin as [<-|Hin]; [lia|]. apply H2; assumption.
        -- apply H2; [right; exact Hin|exact Hm].
    + destruct (name2worker team (r_kind r)) as [w|] eqn:En.
      2: { destruct (Z.ltb_spec 0 (r_min r)) as [_|?]; [|lia]. exists TIME_INF. split; [reflexivity|]. split; [lia|]. split; [auto|].
           intros Hu. exfalso. apply Hu. exists r. split; [left; reflexivity|]. split; [lia|]. intros w Hw Hk. exfalso. eapply name2worker_none; eauto. }
      destruct (name2worker_some _ _ _ En) as [Hw Hk].
      assert (Huniq : forall w', In w' team -> w_kind w' = r_kind r -> w' = w) by (intros w' H1 H2; apply (nodup_kind team); congruence).
      destruct (Z.ltb_spec (w_count w) (r_min r)) as [Hlt|Hge].
      { exists TIME_INF. split; [reflexivity|]. split; [lia|]. split; [auto|].
        intros Hu. exfalso. apply Hu. exists r. split; [left; reflexivity|]. split; [lia|]. intros w' H1 H2. rewrite (Huniq w' H1 H2). exact Hlt. }
      destruct (Hp r (or_introl eq_refl)) as (f & Hf & Hpos). specialize (Hpos w Hw).
      assert (Hmax := Ho r w (or_introl eq_refl) Hw Hk).
      destruct (productivity_output table w (r_max r) f ltac:(congruence) ltac:(lia) ltac:(lia)) as (q & Eq & Hq).
      rewrite Eq. assert (Hout := output_pos (f (w_contractor w)) (w_count w) (r_max r) Hpos ltac:(lia)).
      assert (Hq0 : (0 < q)%Q) by (rewrite Hq; exact Hout).
      assert (Hqb : Qeq_bool q 0 = false).
      { destruct (Qeq_bool q 0) eqn:Eb; [|reflexivity]. apply Qeq_bool_iff in Eb. rewrite Eb in Hq0. exfalso. apply (Qlt_irrefl _ Hq0). }
      rewrite Hqb. set (tr := set_time (Qceiling (inject_Z (r_volume r) / q))).
      assert (Htr := set_time_range (Qceiling (inject_Z (r_volume r) / q))). fold tr in Htr.
      destruct (IH (tmax times tr)) as (t & T1 & T2 & T3 & T4); auto; [rewrite tmax_spec; lia|].
      exists t. split; [exact T1|]. split; [exact T2|]. split.
      * intros (r' & [<-|Hr1] & Hm & Hu).
        -- exfalso. specialize (Hu w Hw Hk). lia.
        -- apply T3. exists r'. auto.
      * intros Hu x Hx. rewrite T4; [|intros (r' & Hr1 & H2); apply Hu; exists r'; split; [right; exact Hr1|exact H2]|exact Hx].
        rewrite tmax_spec.
        assert (Htrx : tr <= x <-> (inject_Z (r_volume r) <= inject_Z x * output (f (w_contractor w)) (Z.to_nat (w_count w)) (r_max r))%Q).
        { unfold tr. rewrite set_time_le by lia. rewrite ceil_le, quotient_le by exact Hq0. rewrite Hq. reflexivity. }
        split.
        -- intros [H1 H2]. split; [lia|]. intros r' w' f' [<-|Hin] Hm Hw' Hk' Hf'.
           ++ rewrite (Huniq w' Hw' Hk') in *. rewrite Hf in Hf'. injection Hf' as <-. apply Htrx. lia.
           ++ apply H2; assumption.
        -- intros [H1 H2]. split.
           ++ assert (tr <= x); [|lia]. apply Htrx. apply (H2 r w f); auto; [left; reflexivity|lia].
           ++ intros r' w' f' Hin. apply H2. right. exact Hin.
Qed.

(** ** C34 *)
(** The coefficient of the code is the shared effort of the workers. *)
Theorem communication_coefficient_correct :
  forall n m, m <> 0 -> exists q, communication_coefficient (Z.of_nat n) m = Some q /\ (q == shared_effort n m)%Q.
Proof.
  intros n m Hm. unfold communication_coefficient. destruct (Z.eqb_spec m 0) as [E|_]; [contradiction|].
  eexists. split; [reflexivity|]. symmetry. apply shared_effort_closed. exact Hm.
Qed.
Print Assumptions communication_coefficient_correct.

(** The estimate of a team that is not too large is infinite if it is understaffed;
    otherwise it is the least number of time units in which the team does the volume of
    every requirement (infinite if that number is not below the infinite time). *)
Theorem estimate_correct :
  forall table reqs team, team <> [] -> NoDup (map w_kind team) ->
    (forall r, In r reqs -> 0 <= r_min r <= r_max r) ->
    productive table reqs team -> not_overstaffed reqs team ->
    exists t, estimate_time table reqs team = Some t /\ 0 <= t <= TIME_INF /\
      (understaffed reqs team -> t = TIME_INF) /\
      (~ understaffed reqs team -> forall x, 0 <= x < TIME_INF -> (t <= x <-> done_in table reqs team x)).
Proof.
  intros table reqs team Hne Hnd Hr Hp Ho.
  destruct (estimate_loop_spec table team Hnd reqs 0 ltac:(unfold TIME_INF; lia) Hr Hp Ho) as (t & T1 & T2 & T3 & T4).
  exists t. split; [destruct team; [contradiction|exact T1]|]. split; [exact T2|]. split; [exact T3|].
  intros Hu x Hx. rewrite (T4 Hu x Hx). intuition lia.
Qed.
Print Assumptions estimate_correct.

(** Adding workers of the same contractors and professions, up to the maximal useful
    number, never makes the estimate longer. *)
Theorem estimate_monotone :
  forall table reqs team team' t t', team <> [] -> NoDup (map w_kind team) ->
    (forall r, In r reqs -> 0 <= r_min r <= r_max r) ->
    productive table reqs team -> not_overstaffed reqs team' ->
    Forall2 (fun w w' => w_kind w' = w_kind w /\ w_contractor w' = w_contractor w /\ w_count w <= w_count w') team team' ->
    estimate_time table reqs team = Some t -> estimate_time table reqs team' = Some t' -> t' <= t.
Proof.
  intros table reqs team team' t t' Hne Hnd Hr Hp Ho HF Et Et'.
  assert (Hk : map w_kind team' = map w_kind team) by (clear -HF; induction HF as [|? ? ? ? (? & _) _ IH]; simpl; congruence).
  assert (Hback : forall w', In w' team' -> exists w, In w team /\ w_kind w' = w_kind w /\ w_contractor w' = w_contractor w /\ w_count w <= w_count w').
  { clear -HF. induction HF as [|w w' l l' Hw _ IH]; intros v [].
    - subst v. exists w. split; [left; reflexivity|exact Hw].
    - destruct (IH v H) as (u & Hu & R). exists u. split; [right; exact Hu|exact R]. }
  assert (Hforth : forall w, In w team -> exists w', In w' team' /\ w_kind w' = w_kind w /\ w_contractor w' = w_contractor w /\ w_count w <= w_count w').
  { clear -HF. induction HF as [|w w' l l' Hw _ IH]; intros v [].
    - subst v. exists w'. split; [left; reflexivity|exact Hw].
    - destruct (IH v H) as (u & Hu & R). exists u. split; [right; exact Hu|exact R]. }
  assert (Hne' : team' <> []) by (destruct HF; [contradiction|discriminate]).
  assert (Hp' : productive table reqs team').
  { intros r Hin. destruct (Hp r Hin) as (f & Hf & Hpos). exists f. split; [exact Hf|].
    intros w' Hw'. destruct (Hback w' Hw') as (w & Hw & _ & -> & _). apply Hpos, Hw. }
  assert (Ho1 : not_overstaffed reqs team).
  { intros r w Hin Hw Hkw. destruct (Hforth w Hw) as (w' & Hw' & Hk' & _ & Hle). specialize (Ho r w' Hin Hw' ltac:(congruence)). lia. }
  destruct (estimate_correct table reqs team Hne Hnd Hr Hp Ho1) as (u & U1 & U2 & U3 & U4).
  destruct (estimate_correct table reqs team' Hne' ltac:(rewrite Hk; exact Hnd) Hr Hp' Ho) as (u' & V1 & V2 & V3 & V4).
  rewrite Et in U1. injection U1 as <-. rewrite Et' in V1. injection V1 as <-.
  destruct (Z.eq_dec t TIME_INF) as [->|Hni]; [lia|].
  assert (Hnu : ~ understaffed reqs team) by (intros H; apply U3 in H; lia).
  assert (Hnu' : ~ understaffed reqs team').
  { intros (r & Hin & Hm & H). apply Hnu. exists r. split; [exact Hin|]. split; [exact Hm|].
    intros w Hw Hkw. destruct (Hforth w Hw) as (w' & Hw' & Hk' & _ & Hle). specialize (H w' Hw' ltac:(congruence)). lia. }
  apply (V4 Hnu' t ltac:(lia)). intros r w' f Hin Hm Hw' Hkw' Hf.
  destruct (Hback w' Hw') as (w & Hw & K1 & K2 & K3).
  assert (Hd := proj1 (U4 Hnu t ltac:(lia)) ltac:(lia) r w f Hin Hm Hw ltac:(congruence) Hf).
  assert (Ht0 : 0 <= t) by lia.
  eapply Qle_trans; [exact Hd|]. rewrite K2. rewrite !(Qmult_comm (inject_Z t)).
  apply Qmult_le_compat_r; [|change 0%Q with (inject_Z 0); rewrite <- Zle_Qle; exact Ht0].
  assert (Hmin : r_min r <= w_count w).
  { destruct (Z.lt_ge_cases (w_count w) (r_min r)) as [Hlt|]; [|assumption]. exfalso. apply Hnu.
    exists r. split; [exact Hin|]. split; [exact Hm|]. intros v Hv Hkv. rewrite (nodup_kind team v w Hnd Hv Hw ltac:(congruence)). exact Hlt. }
  apply output_mono; [|lia|apply (Ho r w' Hin Hw' Hkw')].
  destruct (Hp r Hin) as (f' & Hf' & Hpos). rewrite Hf in Hf'. injection Hf' as <-. apply Qlt_le_weak, Hpos, Hw.
Qed.
Print Assumptions estimate_monotone.

(** Answers of the estimator are representable times, whatever the table. *)
Theorem default_estimator_ok : forall table g, estimator_ok (default_estimator table g).
Proof.
  intros table g n team. unfold default_estimator.
  destruct (estimate_time _ _ _) as [t|] eqn:E; [eapply estimate_range; exact E|unfold TIME_INF; lia].
Qed.
Print Assumptions default_estimator_ok.

(** The estimates for the teams that a scheduler can choose are bounded by [D] if one
    worker of any of the contractors alone would do each requirement in [D] units, the
    counts in the specification are within the requirements, and the works of a chain
    accept the teams of its head. *)
Definition chain_accepts (g : graph) : Prop :=
  forall n c m r, chain_of g n = Some c -> In m c -> In r (u_reqs (g_unit g m)) ->
    exists r', In r' (u_reqs (g_unit g n)) /\ r_kind r' = r_kind r /\ r_min r <= r_min r' /\ r_max r' <= r_max r.
Definition one_worker_suffices (table : productivities) (g : graph) (cs : list contractor) (D : Z) : Prop :=
  forall n r ct, In r (u_reqs (g_unit g n)) -> In ct cs ->
    exists f, table (r_kind r) = Some f /\ (0 < f (ct_id ct))%Q /\ (inject_Z (r_volume r) <= inject_Z D * f (ct_id ct))%Q.
Definition counts_within (g : graph) (spec : nat -> work_spec) : Prop :=
  forall n r x, In r (u_reqs (g_unit g n)) -> In (r_kind r, x) (sp_workers (spec n)) -> r_min r <= x <= r_max r.

Theorem default_estimator_bounded :
  forall table g cs spec D, 0 <= D < TIME_INF -> (forall n, reqs_ok (u_reqs (g_unit g n))) ->
    counts_within g spec -> chain_accepts g -> one_worker_suffices table g cs D ->
    estimates_bounded g (default_estimator table g) cs spec D /\
    (* and the estimator raises no exception on these teams *)
    (forall n c m ct team, chain_of g n = Some c -> In m c -> In ct cs ->
       team_for ct (spec n) (u_reqs (g_unit g n)) team -> estimate_time table (u_reqs (g_unit g m)) team <> None).
Proof.
  intros table g cs spec D HD Hr Hs Hc Ho.
  assert (K : forall n c m ct team, chain_of g n = Some c -> In m c -> In ct cs ->
    team_for ct (spec n) (u_reqs (g_unit g n)) team ->
    exists t, estimate_time table (u_reqs (g_unit g m)) team = Some t /\ t <= D).
  2: { split; [|intros n c m ct team H1 H2 H3 H4; destruct (K n c m ct team H1 H2 H3 H4) as (t & -> & _); discriminate].
       intros n c m ct team H1 H2 H3 H4. unfold default_estimator. destruct (K n c m ct team H1 H2 H3 H4) as (t & -> & H). exact H. }
  intros n c m ct team Hch Hm Hct Hteam.
  destruct team as [|w0 team0] eqn:Eteam; [exists 0; split; [reflexivity|lia]|]. rewrite <- Eteam in *.
  assert (Hne : team <> []) by (rewrite Eteam; discriminate). clear Eteam w0 team0.
  destruct (Hr n) as [Hnd HF].
  assert (Hkinds : map w_kind team = map r_kind (u_reqs (g_unit g n))).
  { clear -Hteam. induction Hteam as [|r w rs ws (_ & H2 & _) _ IH]; simpl; congruence. }
  assert (Hof : forall w, In w team -> exists r', In r' (u_reqs (g_unit g n)) /\ w_kind w = r_kind r' /\ w_contractor w = ct_id ct /\ r_min r' <= w_count w <= r_max r').
  { assert (Hs' : forall r x, In r (u_reqs (g_unit g n)) -> In (r_kind r, x) (sp_workers (spec n)) -> r_min r <= x <= r_max r) by (intros; eapply Hs; eauto).
    clear -Hteam Hs'. induction Hteam as [|r w rs ws (H1 & H2 & H3 & H4) _ IH]; intros v Hin; [destruct Hin|].
    destruct Hin as [<-|Hin].
    - exists r. split; [left; reflexivity|]. split; [exact H2|]. split; [exact H1|]. destruct H4 as [H4|H4]; [exact H4|apply Hs'; [left; reflexivity|exact H4]].
    - destruct IH with (w := v) as (r' & A & B); auto; [intros r0 x H; apply Hs'; right; exact H|]. exists r'. split; [right; exact A|exact B]. }
  assert (Hhas : forall r', In r' (u_reqs (g_unit g n)) -> exists w, In w team /\ w_kind w = r_kind r').
  { intros r' Hin. apply (in_map r_kind) in Hin. rewrite <- Hkinds in Hin. apply in_map_iff in Hin as (w & E & Hin). eauto. }
  assert (Huniq : forall r1 r2, In r1 (u_reqs (g_unit g n)) -> In r2 (u_reqs (g_unit g n)) -> r_kind r1 = r_kind r2 -> r1 = r2).
  { clear -Hnd. induction (u_reqs (g_unit g n)) as [|v l IH]; intros r1 r2 H1 H2 E; [destruct H1|].
    inversion Hnd as [|? ? N1 N2]; subst. destruct H1 as [<-|H1], H2 as [<-|H2]; auto.
    - exfalso. apply N1. rewrite E. apply in_map, H2.
    - exfalso. apply N1. rewrite <- E. apply in_map, H1. }
  (* each requirement of the member meets one of the team's entries within its limits *)
  assert (Hmeet : forall r w, In r (u_reqs (g_unit g m)) -> In w team -> w_kind w = r_kind r -> r_min r <= w_count w <= r_max r).
  { intros r w Hin Hw Hk. destruct (Hc n c m r Hch Hm Hin) as (r' & R1 & R2 & R3 & R4).
    destruct (Hof w Hw) as (r2 & S1 & S2 & _ & S3). rewrite (Huniq r2 r' S1 R1 ltac:(congruence)) in S3. lia. }
  destruct (Hr m) as [Hndm HFm].
  assert (Hrm : forall r, In r (u_reqs (g_unit g m)) -> 0 <= r_min r <= r_max r) by (intros r Hin; rewrite Forall_forall in HFm; apply HFm, Hin).
  destruct (estimate_correct table (u_reqs (g_unit g m)) team Hne ltac:(rewrite Hkinds; exact Hnd) Hrm) as (t & T1 & T2 & T3 & T4).
  - intros r Hin. destruct (Ho m r ct Hin Hct) as (f & F1 & F2 & _). exists f. split; [exact F1|].
    intros w Hw. destruct (Hof w Hw) as (_ & _ & _ & -> & _). exact F2.
  - intros r w Hin Hw Hk. apply (Hmeet r w Hin Hw Hk).
  - exists t. split; [exact T1|].
    assert (Hnu : ~ understaffed (u_reqs (g_unit g m)) team).
    { intros (r & Hin & Hp & H). destruct (Hc n c m r Hch Hm Hin) as (r' & R1 & R2 & _).
      destruct (Hhas r' R1) as (w & Hw & Hk). specialize (H w Hw ltac:(congruence)).
      assert (A := Hmeet r w Hin Hw ltac:(congruence)). lia. }
    apply (T4 Hnu D ltac:(lia)). intros r w f Hin Hmin Hw Hk Hf.
    destruct (Ho m r ct Hin Hct) as (f' & F1 & F2 & F3). rewrite Hf in F1. injection F1 as <-.
    destruct (Hof w Hw) as (_ & _ & _ & -> & _). assert (A := Hmeet r w Hin Hw Hk).
    eapply Qle_trans; [exact F3|]. rewrite !(Qmult_comm (inject_Z D)).
    apply Qmult_le_compat_r; [|change 0%Q with (inject_Z 0); rewrite <- Zle_Qle; lia].
    rewrite <- (output_one (f (ct_id ct)) (r_max r)) at 1 by lia. change 1%nat with (Z.to_nat 1).
    apply output_mono; [apply Qlt_le_weak, F2|lia|lia].
Qed.
Print Assumptions default_estimator_bounded.

(** ** The default schedulers with the default estimator *)
(** Everything a run of a default scheduler with the default estimator is given. *)
Record default_run (g : graph) (nodes : list nat) (table : productivities) (prio : nat -> Z) (cs : list contractor)
       (spec : nat -> work_spec) (apt : Z) : Prop := {
  dr_graph : graph_ok g nodes;
  dr_prio : priorities_ok g nodes prio;
  dr_contractors : contractors_ok cs;
  dr_reqs : forall n, reqs_ok (u_reqs (g_unit g n));
  dr_volumes : forall n, 0 <= volume_of g n;
  dr_service : forall n, u_service (g_unit g n) = true -> u_reqs (g_unit g n) = [];
  dr_chains : chain_accepts g;
  dr_chain_kinds : forall h m, is_head g nodes h -> in_chain g h m ->
                     map r_kind (u_reqs (g_unit g m)) = map r_kind (u_reqs (g_unit g h));
  dr_lags : inseparable_lags_ok g;
  dr_spec : forall n, spec_ok (spec n) /\ sp_time (spec n) = None /\ spec_fits cs (u_reqs (g_unit g n)) (spec n);
  dr_complete : spec_complete g spec;
  dr_counts : counts_within g spec;
  dr_start : 0 <= apt;
  (* one worker alone would do each requirement in D; lags are at most Lg; all of it,
     one after another, takes less than half of the infinite time *)
  dr_horizon : exists D Lg, 0 <= D /\ one_worker_suffices table g cs D /\
                 0 <= Lg /\ (forall e, In e (g_edges g) -> e_lag e <= Lg) /\
                 2 * (apt + Z.of_nat (S (length nodes)) * (1 + D + Lg)) < TIME_INF
}.

Lemma default_run_inputs g nodes table prio cs spec apt : default_run g nodes table prio cs spec apt ->
  inputs_ok g (default_estimator table g) cs spec apt /\ times_fit g (default_estimator table g) cs spec nodes apt /\
  Z.of_nat (length nodes) < TIME_INF.
Proof.
  intros H. destruct (dr_horizon _ _ _ _ _ _ _ H) as (D & Lg & HD & Ho & HL & Hl & Hh).
  assert (Ha := dr_start _ _ _ _ _ _ _ H).
  assert (HDI : D < TIME_INF) by nia.
  split; [|split].
  - split; [apply (dr_contractors _ _ _ _ _ _ _ H)|]. split; [apply default_estimator_ok|].
    split; [apply (dr_reqs _ _ _ _ _ _ _ H)|]. split; [apply (dr_volumes _ _ _ _ _ _ _ H)|].
    split; [intros n; apply (dr_spec _ _ _ _ _ _ _ H n)|]. nia.
  - exists D, Lg. split; [split; [exact HD|]|split; [auto|nia]].
    apply default_estimator_bounded; auto; [apply (dr_reqs _ _ _ _ _ _ _ H)|apply (dr_counts _ _ _ _ _ _ _ H)|apply (dr_chains _ _ _ _ _ _ _ H)].
  - nia.
Qed.

(** HEFTScheduler(work_estimator=DefaultWorkEstimator()).schedule: a feasible schedule,
    or the graph's chains depend on each other cyclically, or some work has no allowed
    contractor with enough workers. *)
Theorem heft_with_default_estimator :
  forall g nodes table prio cs spec apt, default_run g nodes table prio cs spec apt ->
    let r := heft_end_default g nodes (default_estimator table g) prio cs spec apt in
    (exists sd s, r = Scheduled sd s /\ feasible g cs spec nodes sd /\
       forall e wu wv, In e (g_edges g) -> In (e_from e, wu) sd -> In (e_to e, wv) sd ->
         tadd (sw_finish wu) (e_lag e) <= sw_start wv) \/
    (r = CircularGraph /\ chains_cyclic g nodes) \/
    (r = NotEnoughWorkers /\ exists n, is_head g nodes n /\ nobody_able g cs spec n).
Proof.
  intros g nodes table prio cs spec apt H. destruct (default_run_inputs _ _ _ _ _ _ _ H) as (Hi & Hf & Hlen). destruct H. cbv zeta.
  destruct (heft_end_default_total g nodes (default_estimator table g) prio cs spec apt) as [(sd & s & E)|R]; auto.
  - intros n. apply dr_spec0.
  - intros n. apply dr_spec0.
  - left. exists sd, s. split; [exact E|].
    apply (heft_end_default_feasible g nodes (default_estimator table g) prio cs spec apt sd s); auto.
    + apply complete_usable. exact dr_complete0.
    + intros n. apply dr_spec0.
Qed.
Print Assumptions heft_with_default_estimator.
Theorem heft_between_with_default_estimator :
  forall g nodes table prio cs spec apt, default_run g nodes table prio cs spec apt ->
    let r := heft_between_default g nodes (default_estimator table g) prio cs spec apt in
    (exists sd s, r = Scheduled sd s /\ feasible g cs spec nodes sd /\
       forall e wu wv, In e (g_edges g) -> In (e_from e, wu) sd -> In (e_to e, wv) sd ->
         (forall h, is_head g nodes h -> in_chain g h (e_from e) -> ~ in_chain g h (e_to e)) ->
         tadd (sw_finish wu) (e_lag e) <= sw_start wv) \/
    (r = CircularGraph /\ chains_cyclic g nodes) \/
    (r = NotEnoughWorkers /\ exists n, is_head g nodes n /\ nobody_able g cs spec n).
Proof.
  intros g nodes table prio cs spec apt H. destruct (default_run_inputs _ _ _ _ _ _ _ H) as (Hi & Hf & Hlen). destruct H. cbv zeta.
  destruct (heft_between_default_total g nodes (default_estimator table g) prio cs spec apt) as [(sd & s & E)|R]; auto.
  - intros n. apply dr_spec0.
  - intros n. apply dr_spec0.
  - left. exists sd, s. split; [exact E|].
    destruct (heft_between_default_feasible g nodes (default_estimator table g) prio cs spec apt sd s) as [F1 F2]; auto.
    + apply complete_usable. exact dr_complete0.
    + split; [exact F1|]. intros e wu wv He Hu Hv Hne. apply (F2 e wu wv He Hu Hv Hne). intros h _ _. left. apply dr_spec0.
Qed.
Print Assumptions heft_between_with_default_estimator.

(** The graph of [sx_graph] with productivity 1 everywhere meets the hypotheses. *)
Definition ex_table : productivities := fun k => if (k <? 5)%nat then Some (fun _ => 1%Q) else None.
Example default_run_ex : default_run sx_graph px_nodes ex_table (fun _ => 1) sx_contractors sx_spec 0.
Proof.
  destruct pipeline_hypotheses as (H1 & H2 & (H3 & H4 & H5 & H6 & H7 & H8) & _ & _ & _ & _ & _ & H9 & H10 & H11 & H12 & H13 & H14).
  constructor; auto; try lia.
  - intros [|[|[|[|[|[|n]]]]]] c m r H Hin Hr; cbn in H; injection H as <-; simpl in Hin;
      repeat destruct Hin as [<-|Hin]; try tauto; cbn in Hr; exists r; cbn; repeat split; try tauto; lia.
  - intros n. split; [apply H7|]. split; [apply H10|apply H11].
  - apply defaults_ex.
  - intros n r x Hr Hx. unfold sx_spec in Hx. destruct (Nat.eqb n 4); destruct Hx.
  - exists 12, 2. split; [lia|]. split; [|split; [lia|split]].
    + intros n r ct Hr _. exists (fun _ => 1%Q). destruct n as [|[|[|[|[|n]]]]]; cbn in Hr; repeat destruct Hr as [<-|Hr]; try tauto;
        (split; [reflexivity|]; split; [reflexivity|cbn; discriminate]).
    + intros e He. simpl in He. repeat destruct He as [<-|He]; try tauto; simpl; lia.
    + change TIME_INF with 2000000000. simpl. lia.
Qed.
Example default_estimates_ex :
  estimate_time ex_table [Req 0 12 1 3; Req 1 6 1 2] [Wk 0 0 1; Wk 0 1 1] = Some 12 /\
  estimate_time ex_table [Req 0 12 1 3; Req 1 6 1 2] [Wk 0 0 2; Wk 0 1 2] = Some 4 /\
  estimate_time ex_table [Req 0 12 1 3; Req 1 6 1 2] [Wk 0 0 3; Wk 0 1 2] = Some 2 /\
  estimate_time ex_table [Req 0 12 1 3; Req 1 6 1 2] [Wk 0 0 3] = Some TIME_INF /\
  estimate_time ex_table [Req 0 12 2 3; Req 1 6 1 2] [Wk 0 0 1; Wk 0 1 1] = Some TIME_INF /\
  match heft_end_default sx_graph px_nodes (default_estimator ex_table sx_graph) (fun _ => 1) sx_contractors sx_spec 0 with
  | Scheduled sd _ => times sd | _ => [] end <> [] /\
  match heft_between_default sx_graph px_nodes (default_estimator ex_table sx_graph) (fun _ => 1) sx_contractors sx_spec 0 with
  | Scheduled sd _ => times sd | _ => [] end <> [].
Proof. vm_compute. repeat split; try reflexivity; discriminate. Qed.

(** Findings. A team larger than the maximum can have a negative output, and the work
    then takes no time at all; an empty team does any work in no time; a kind that is
    not in the table is an error. *)
Theorem overstaffed_work_takes_no_time :
  exists reqs team, NoDup (map w_kind team) /\ (forall r, In r reqs -> 0 < r_min r <= r_max r /\ 0 < r_volume r) /\
    productive ex_table reqs team /\ estimate_time ex_table reqs team = Some 0.
Proof.
  exists [Req 0 100 1 1], [Wk 0 0 3]. split; [repeat constructor; intros []|]. split.
  - intros r [<-|[]]; simpl; lia.
  - split; [|vm_compute; reflexivity]. intros r [<-|[]]. exists (fun _ => 1%Q). split; reflexivity.
Qed.
Theorem empty_team_takes_no_time : forall table reqs, estimate_time table reqs [] = Some 0.
Proof. reflexivity. Qed.
Theorem unknown_kind_fails :
  exists table reqs team, ~ understaffed reqs team /\ not_overstaffed reqs team /\ estimate_time table reqs team = None.
Proof.
  exists ex_table, [Req 7 10 1 2], [Wk 0 7 1]. split; [|split; [|reflexivity]].
  - intros (r & [<-|[]] & _ & H). specialize (H (Wk 0 7 1) (or_introl eq_refl) eq_refl). simpl in H. lia.
  - intros r w [<-|[]] [<-|[]] _. simpl. lia.
Qed.
