(** C43, C44: the check of contractors and the generation of contractors; C52: the default
    pipeline. *)
From Coq Require Import ZArith List Bool QArith Qround Lia Sorted Permutation Relations.
From Verif Require Import TimeModel MomentumModel JITModel MomentumSpec GraphModel ScheduleModel ScheduleSpec ContractorProofs TeamProofs
  ContractorTheorems ScheduleInv ScheduleTheorems JitScheduleTheorems Digraph HeadModel HeadProofs HeadTheorems PriorityModel
  TopoModel TopoProofs TopoTheorems
  ValidationModel ValidationTheorems PipelineModel PipelineTheorems ResourceModel ResourceTheorems EstimatorModel EstimatorTheorems EnvModel.
Import ListNotations.
Local Open Scope Z_scope.

(** ** C43 *)
Lemma assoc_get_unique l k n : NoDup (map fst l) -> In (k, n) l -> assoc_get l k = Some n.
Proof.
  induction l as [|[k' m] l IH]; simpl; [tauto|]. intros H. inversion H as [|? ? H1 H2]; subst.
  intros [[= -> ->]|Hin]; [rewrite Nat.eqb_refl; reflexivity|].
  destruct (Nat.eqb_spec k' k) as [->|]; [|auto]. exfalso. apply H1. apply (in_map fst) in Hin. exact Hin.
Qed.
Lemma assoc_get_none l k : assoc_get l k = None <-> ~ In k (map fst l).
Proof.
  induction l as [|[k' m] l IH]; simpl; [tauto|].
  destruct (Nat.eqb_spec k' k) as [->|Hne]; [split; [discriminate|tauto]|]. rewrite IH. tauto.
Qed.
Lemma offers_loop_spec ct reqs b : NoDup (map fst (ct_workers ct)) ->
  offers_loop (ct_workers ct) reqs true = Some b -> (b = true <-> able ct reqs).
Proof.
  intros Hnd. induction reqs as [|r rest IH]; cbn [offers_loop].
  - intros [= <-]. split; [intros _ r []|reflexivity].
  - destruct (assoc_get (ct_workers ct) (r_kind r)) as [c|] eqn:E; [|discriminate].
    apply assoc_get_in in E. destruct (Z.ltb_spec c (r_min r)).
    + intros [= <-]. split; [discriminate|]. intros Ha. destruct (Ha r (or_introl eq_refl)) as (n & Hn & Hle).
      assert (n = c) by (apply assoc_get_unique in Hn, E; auto; congruence). lia.
    + intros Hb. apply IH in Hb. rewrite Hb. split; intros Ha r' Hr'.
      * destruct Hr' as [<-|Hr']; [exists c; split; [exact E|lia]|apply Ha, Hr'].
      * apply Ha. right. exact Hr'.
Qed.
Lemma contractors_loop_spec cs reqs num flag' num' : (forall ct, In ct cs -> NoDup (map fst (ct_workers ct))) ->
  contractors_loop cs reqs true num = Some (flag', num') ->
  flag' = true /\ ((exists ct, In ct cs /\ able ct reqs) /\ num' = S num \/ (forall ct, In ct cs -> ~ able ct reqs) /\ num' = num).
Proof.
  intros Hnd. induction cs as [|c rest IH]; cbn [contractors_loop].
  - intros [= <- <-]. split; [reflexivity|]. right. split; [intros ct []|reflexivity].
  - destruct (offers_loop (ct_workers c) reqs true) as [[|]|] eqn:E; [| |discriminate];
      apply offers_loop_spec in E; try (apply Hnd; left; reflexivity).
    + intros [= <- <-]. split; [reflexivity|]. left. split; [|reflexivity]. exists c. split; [left; reflexivity|apply E; reflexivity].
    + intros H. destruct IH as (F & R); [intros ct Hct; apply Hnd; right; exact Hct|exact H|].
      split; [exact F|]. destruct R as [((ct & Hct & Ha) & Hn)|(Hno & Hn)].
      * left. split; [exists ct; split; [right; exact Hct|exact Ha]|exact Hn].
      * right. split; [|exact Hn]. intros ct [<-|Hct]; [intros Ha; apply E in Ha; discriminate|apply Hno, Hct].
Qed.
Lemma nodes_loop_spec cs : (forall ct, In ct cs -> NoDup (map fst (ct_workers ct))) -> forall works b,
  nodes_loop cs works true 0 = Some b -> (b = true <-> forall reqs, In reqs works -> exists ct, In ct cs /\ able ct reqs).
Proof.
  intros Hnd. induction works as [|reqs rest IH]; intros b; cbn [nodes_loop].
  - intros [= <-]. split; [intros _ reqs []|reflexivity].
  - destruct (contractors_loop cs reqs true 0) as [[flag' num']|] eqn:E; [|discriminate].
    apply contractors_loop_spec in E as (-> & E); [|exact Hnd].
    destruct E as [((ct & Hct & Ha) & ->)|(Hno & ->)]; cbn [Nat.eqb].
    + intros Hb. apply IH in Hb. rewrite Hb. split.
      * intros H reqs' [<-|Hr]; [eauto|apply H, Hr].
      * intros H reqs' Hr. apply H. right. exact Hr.
    + intros [= <-]. split; [discriminate|]. intros H. destruct (H reqs (or_introl eq_refl)) as (ct & Hct & Ha). exfalso. exact (Hno ct Hct Ha).
Qed.

(** Whenever the check answers, it accepts exactly the graphs in which for each work one
    contractor alone has the minimum of every profession. *)
Theorem contractor_check_exact :
  forall cs g nodes b, contractors_ok cs -> contractors_can_perform_work_graph cs g nodes = Some b ->
    (b = true <-> forall n, In n nodes -> exists ct, In ct cs /\ able ct (u_reqs (g_unit g n))).
Proof.
  intros cs g nodes b Hcs H. apply nodes_loop_spec in H; [|intros ct Hct; apply (proj2 Hcs ct Hct)].
  rewrite H. split.
  - intros H' n Hn. apply H'. apply in_map_iff. eauto.
  - intros H' reqs Hr. apply in_map_iff in Hr as (n & <- & Hn). apply H', Hn.
Qed.
Print Assumptions contractor_check_exact.
(** It answers if each contractor has at least an entry for every profession needed. *)
Theorem contractor_check_answers :
  forall cs g nodes,
    (forall ct n r, In ct cs -> In n nodes -> In r (u_reqs (g_unit g n)) -> In (r_kind r) (map fst (ct_workers ct))) ->
    exists b, contractors_can_perform_work_graph cs g nodes = Some b.
Proof.
  intros cs g nodes H. unfold contractors_can_perform_work_graph.
  assert (K : forall works flag num, (forall ct reqs r, In ct cs -> In reqs works -> In r reqs -> In (r_kind r) (map fst (ct_workers ct))) ->
    exists b, nodes_loop cs works flag num = Some b).
  { induction works as [|reqs rest IH]; intros flag num Hw; cbn [nodes_loop]; [eauto|].
    assert (Hc : exists x, contractors_loop cs reqs flag num = Some x).
    { assert (Hr : forall ct r, In ct cs -> In r reqs -> In (r_kind r) (map fst (ct_workers ct))) by (intros ct r Hct Hr; eapply Hw; eauto; left; reflexivity).
      clear -Hr. revert flag num. induction cs as [|c rest IH]; intros flag num; cbn [contractors_loop]; [eauto|].
      assert (Ho : exists b, offers_loop (ct_workers c) reqs flag = Some b).
      { assert (Hr' : forall r, In r reqs -> In (r_kind r) (map fst (ct_workers c))) by (intros r; apply Hr; left; reflexivity).
        clear -Hr'. induction reqs as [|r rs IH]; cbn [offers_loop]; [eauto|].
        destruct (assoc_get (ct_workers c) (r_kind r)) as [x|] eqn:E.
        - destruct (x <? r_min r); [eauto|]. apply IH. intros r0 H0. apply Hr'. right. exact H0.
        - exfalso. apply assoc_get_none in E. apply E, Hr'. left. reflexivity. }
      destruct Ho as [[|] ->]; [eauto|]. apply IH. intros ct r Hct. apply Hr. right. exact Hct. }
    destruct Hc as [[f k] ->]. destruct (Nat.eqb k 0); [eauto|]. apply IH. intros ct reqs' r Hct Hin. apply Hw; [exact Hct|right; exact Hin]. }
  apply K. intros ct reqs r Hct Hin Hr. apply in_map_iff in Hin as (n & <- & Hn). eapply H; eauto.
Qed.
Print Assumptions contractor_check_answers.
(** [sx_contractors] of ScheduleTheorems.v pass the check; with the second one alone the
    minimum of work 4 is not met any more when it is raised. *)
Example contractor_check_ex :
  contractors_can_perform_work_graph sx_contractors sx_graph px_nodes = Some true /\
  contractors_can_perform_work_graph [Ct 1 [(0%nat, 1); (1%nat, 1)]] sx_graph px_nodes = Some false.
Proof. split; vm_compute; reflexivity. Qed.
(** Finding: the check fails with KeyError when the first contractor does not have a
    profession at all, although the second one can do every work. *)
Theorem contractor_check_fails :
  exists cs g nodes, contractors_ok cs /\ (forall n, In n nodes -> exists ct, In ct cs /\ able ct (u_reqs (g_unit g n))) /\
    contractors_can_perform_work_graph cs g nodes = None.
Proof.
  exists [Ct 0 [(0%nat, 5)]; Ct 1 [(1%nat, 5)]], (Gr [] (fun _ => WU false [Req 1 10 1 2] 1)), [0%nat].
  split; [|split; [|reflexivity]].
  - split; [repeat constructor; simpl; intuition discriminate|].
    intros c [<-|[<-|[]]]; cbn; (split; [repeat constructor; intros []|]); intros k n [[= <- <-]|[]]; lia.
  - intros n _. exists (Ct 1 [(1%nat, 5)]). split; [right; left; reflexivity|].
    intros r [<-|[]]. exists 5. split; [left; reflexivity|simpl; lia].
Qed.

(** ** C44 *)
Definition pair_le (a b : nat * Z) : Prop := pair_leb a b = true.
Lemma pair_le_iff a b : pair_le a b <-> (fst a < fst b)%nat \/ (fst a = fst b /\ snd a <= snd b).
Proof.
  unfold pair_le, pair_leb. rewrite orb_true_iff, andb_true_iff, Nat.ltb_lt, Nat.eqb_eq, Z.leb_le. tauto.
Qed.
Lemma insert_pair_perm x l : Permutation (insert_pair x l) (x :: l).
Proof.
  induction l as [|y l IH]; simpl; [apply Permutation_refl|]. destruct (pair_leb x y); [apply Permutation_refl|].
  eapply Permutation_trans; [apply perm_skip; exact IH|apply perm_swap].
Qed.
Lemma sort_pairs_perm l : Permutation (sort_pairs l) l.
Proof.
  induction l as [|x l IH]; simpl; [constructor|]. eapply Permutation_trans; [apply insert_pair_perm|apply perm_skip; exact IH].
Qed.
Lemma insert_pair_sorted x l : StronglySorted pair_le l -> StronglySorted pair_le (insert_pair x l).
Proof.
  intros H. induction H as [|y l Hl IH Hf]; simpl; [repeat constructor|].
  destruct (pair_leb x y) eqn:E.
  - constructor; [constructor; assumption|]. constructor; [exact E|].
    eapply Forall_impl; [|exact Hf]. intros z. change (pair_leb x y = true) with (pair_le x y) in E. rewrite pair_le_iff in *. rewrite pair_le_iff. lia.
  - constructor; [exact IH|]. apply Forall_forall. intros z Hz.
    apply (Permutation_in _ (insert_pair_perm x l)) in Hz. destruct Hz as [<-|Hz].
    + assert (~ pair_le x y) by (unfold pair_le; congruence). rewrite pair_le_iff in *. lia.
    + rewrite Forall_forall in Hf. apply Hf, Hz.
Qed.
Lemma sort_pairs_sorted l : StronglySorted pair_le (sort_pairs l).
Proof. induction l as [|x l IH]; simpl; [constructor|apply insert_pair_sorted, IH]. Qed.

Lemma last_of_groups_spec l : StronglySorted pair_le l ->
  (forall x, In x (last_of_groups l) -> In x l /\ forall v, In (fst x, v) l -> v <= snd x) /\
  (forall k v, In (k, v) l -> In k (map fst (last_of_groups l))) /\ NoDup (map fst (last_of_groups l)) /\
  (forall x y, In x (last_of_groups l) -> In y l -> (forall z, In z l -> pair_le y z) -> (fst y <= fst x)%nat).
Proof.
  induction l as [|x r IH]; intros Hs; [simpl; repeat split; try tauto; try constructor|].
  inversion Hs as [|? ? Hr Hf]; subst. specialize (IH Hr). rewrite Forall_forall in Hf. destruct IH as (I1 & I2 & I3 & _).
  assert (Hmin : forall x0 y, In x0 (last_of_groups (x :: r)) -> In y (x :: r) -> (forall z, In z (x :: r) -> pair_le y z) ->
            (forall x1, In x1 (last_of_groups (x :: r)) -> In x1 (x :: r)) -> (fst y <= fst x0)%nat).
  { intros x0 y Hx0 Hy Hz Hsub. specialize (Hz x0 (Hsub x0 Hx0)). rewrite pair_le_iff in Hz. lia. }
  cbn [last_of_groups]. cbn [last_of_groups] in Hmin. destruct r as [|y r'].
  - assert (G : forall x0, In x0 [x] -> In x0 [x] /\ forall v, In (fst x0, v) [x] -> v <= snd x0).
    { intros x0 [<-|[]]. split; [left; reflexivity|]. intros v [E|[]]. destruct x as [a b]. simpl in *. injection E as ->. lia. }
    split; [exact G|]. split; [intros k v [->|[]]; left; reflexivity|]. split; [repeat constructor; intros []|].
    intros x0 y Hx Hy Hz. eapply Hmin; eauto.
  - destruct (Nat.eqb_spec (fst x) (fst y)) as [E|E].
    + assert (G : forall x0, In x0 (last_of_groups (y :: r')) -> In x0 (x :: y :: r') /\ forall v, In (fst x0, v) (x :: y :: r') -> v <= snd x0).
      { intros x0 H0. destruct (I1 x0 H0) as [J1 J2]. split; [right; exact J1|].
        intros v [Ex|Hv]; [|apply J2, Hv].
        (* x has the kind of y, which is in the list as well *)
        subst x. simpl in E. assert (Hle := Hf x0 J1). rewrite pair_le_iff in Hle. simpl in Hle. lia. }
      split; [exact G|]. split; [|split; [exact I3|intros x0 z Hx0 Hz Hall; eapply Hmin; eauto; intros x1 H1; apply G, H1]].
      intros k v [->|Hin]; [|eapply I2; exact Hin]. simpl in E. subst k. destruct y as [ky vy]. simpl. eapply I2. left. reflexivity.
    + assert (Hlt : forall z, In z (y :: r') -> (fst x < fst z)%nat).
      { intros z Hz. assert (Hxy := Hf y (or_introl eq_refl)). rewrite pair_le_iff in Hxy.
        destruct Hz as [<-|Hz]; [lia|]. inversion Hr as [|? ? _ Hfy]; subst. rewrite Forall_forall in Hfy.
        assert (Hyz := Hfy z Hz). rewrite pair_le_iff in Hyz. lia. }
      assert (G : forall x0, In x0 (x :: last_of_groups (y :: r')) -> In x0 (x :: y :: r') /\ forall v, In (fst x0, v) (x :: y :: r') -> v <= snd x0).
      { intros x0 [<-|H0].
        - split; [left; reflexivity|]. intros v [Ex|Hv]; [destruct x; simpl in *; injection Ex as ->; lia|].
          apply Hlt in Hv. simpl in Hv. lia.
        - destruct (I1 x0 H0) as [J1 J2]. split; [right; exact J1|]. intros v [Ex|Hv]; [|apply J2, Hv].
          subst x. specialize (Hlt x0 J1). simpl in Hlt. lia. }
      split; [exact G|]. split; [|split].
      * intros k v [->|Hin]; [left; reflexivity|right; eapply I2; exact Hin].
      * cbn [map]. constructor; [|exact I3]. intros Hin. apply in_map_iff in Hin as (z & Ez & Hz). destruct (I1 z Hz) as [J1 _]. apply Hlt in J1. lia.
      * intros x0 z Hx0 Hz Hall. eapply Hmin; eauto. intros x1 H1. apply G, H1.
Qed.

Lemma py_round_ge z q : (inject_Z z <= q)%Q -> z <= py_round q.
Proof.
  intros H. assert (z <= Qfloor q) by (apply Qfloor_resp_le in H; rewrite Qfloor_Z in H; exact H).
  unfold py_round. destruct (Qcompare _ _); [destruct (Z.even _)| |]; lia.
Qed.
Lemma py_int_ge z q : 0 <= z -> (inject_Z z <= q)%Q -> z <= py_int q.
Proof.
  intros Hz H. assert (E : z <= Qfloor q) by (apply Qfloor_resp_le in H; rewrite Qfloor_Z in H; exact H).
  assert (Hq : 0 <= Qnum q). { unfold Qle in H. simpl in H. nia. }
  unfold py_int. rewrite Z.quot_div_nonneg by lia. unfold Qfloor in E. destruct q as [a b]. exact E.
Qed.
Lemma rand_int_ge z q : 0 <= z -> (inject_Z z <= q)%Q -> z <= rand_int q (inject_Z z) q.
Proof.
  intros Hz H. unfold rand_int. assert (A := py_round_ge z q H).
  assert (B : z <= py_int (q + EPS)).
  { apply py_int_ge; [exact Hz|]. rewrite <- (Qplus_0_r (inject_Z z)). apply Qplus_le_compat; [exact H|discriminate]. }
  lia.
Qed.
Lemma py_round_Z z q : (q == inject_Z z)%Q -> py_round q = z.
Proof.
  intros H. unfold py_round. assert (E : Qfloor q = z) by (rewrite H; apply Qfloor_Z). rewrite E.
  assert (C : ((q - inject_Z z) ?= 1 # 2)%Q = Lt); [|rewrite C; reflexivity].
  rewrite <- Qlt_alt. rewrite H. setoid_replace (inject_Z z - inject_Z z)%Q with 0%Q by ring. reflexivity.
Qed.
Lemma py_int_le q : 0 <= Qnum q -> py_int q = Qfloor q.
Proof. intros H. unfold py_int. rewrite Z.quot_div_nonneg by lia. destruct q; reflexivity. Qed.

(** The counts for the generation method: the largest over the works. *)
Definition method_count (method : generation_method) (r : req) : Z :=
  match method with MIN => r_min r | MAX => r_max r | AVG => (r_min r + r_max r) / 2 end.
Lemma value_by_req_spec method r : 0 <= r_min r <= r_max r -> value_by_req method r = method_count method r.
Proof.
  intros H. destruct method; try reflexivity. unfold value_by_req, method_count.
  unfold py_int, inject_Z, Qdiv, Qmult, Qinv. cbn [Qnum Qden]. rewrite Z.quot_div_nonneg by lia. f_equal; lia.
Qed.
Lemma method_count_range method r : 0 <= r_min r <= r_max r -> r_min r <= method_count method r <= r_max r.
Proof. intros H. destruct method; cbn; [lia|lia|]. split; [apply Z.div_le_lower_bound|apply Z.div_le_upper_bound]; lia. Qed.

(** A contractor generated with a scaler of at least 1 has exactly the professions that
    occur in the graph, each with at least the method's count for every work and hence
    with the minimum of every work, so that it can do all works; with a whole scaler it
    has exactly that multiple of the largest count. *)
Theorem generated_contractor_correct :
  forall g nodes scaler method id, (1 <= scaler)%Q ->
    (forall n r, In n nodes -> In r (u_reqs (g_unit g n)) -> 0 <= r_min r <= r_max r) ->
    exists ct, get_contractor_by_wg g nodes scaler method id = Some ct /\ ct_id ct = id /\
      NoDup (map fst (ct_workers ct)) /\
      (forall k, In k (map fst (ct_workers ct)) <-> exists n r, In n nodes /\ In r (u_reqs (g_unit g n)) /\ r_kind r = k) /\
      (forall k c, In (k, c) (ct_workers ct) -> forall n r, In n nodes -> In r (u_reqs (g_unit g n)) -> r_kind r = k ->
         method_count method r <= c) /\
      (forall n, In n nodes -> able ct (u_reqs (g_unit g n))) /\
      (forall z k c, (scaler == inject_Z z)%Q -> In (k, c) (ct_workers ct) ->
         exists n r, In n nodes /\ In r (u_reqs (g_unit g n)) /\ r_kind r = k /\ c = z * method_count method r).
Proof.
  intros g nodes scaler method id Hsc Hr. unfold get_contractor_by_wg.
  assert (Eb : Qle_bool 1 scaler = true) by (apply Qle_bool_iff; exact Hsc). rewrite Eb. cbn [negb].
  set (wg := concat (map (fun n => u_reqs (g_unit g n)) nodes)).
  assert (Hwg : forall r, In r wg <-> exists n, In n nodes /\ In r (u_reqs (g_unit g n))).
  { intros r. unfold wg. rewrite in_concat. split.
    - intros (l & Hl & Hin). apply in_map_iff in Hl as (n & <- & Hn). eauto.
    - intros (n & Hn & Hin). exists (u_reqs (g_unit g n)). split; [apply in_map_iff; eauto|exact Hin]. }
  set (pairs := map (fun r => (r_kind r, value_by_req method r)) wg).
  destruct (last_of_groups_spec (sort_pairs pairs) (sort_pairs_sorted pairs)) as (G1 & G2 & G3 & _).
  assert (Hp : forall x, In x (sort_pairs pairs) <-> In x pairs).
  { intros x. split; apply Permutation_in; [apply sort_pairs_perm|apply Permutation_sym, sort_pairs_perm]. }
  set (groups := last_of_groups (sort_pairs pairs)) in *.
  assert (Hg : forall k v, In (k, v) groups -> exists n r, In n nodes /\ In r (u_reqs (g_unit g n)) /\ r_kind r = k /\ v = method_count method r).
  { intros k v Hin. destruct (G1 _ Hin) as [Hin' _]. apply Hp in Hin'. apply in_map_iff in Hin' as (r & [= <- <-] & Hrw).
    apply Hwg in Hrw as (n & Hn & Hin'). exists n, r. repeat split; auto. apply value_by_req_spec. eapply Hr; eauto. }
  assert (Hmax : forall k v n r, In (k, v) groups -> In n nodes -> In r (u_reqs (g_unit g n)) -> r_kind r = k -> method_count method r <= v).
  { intros k v n r Hin Hn Hin' Hk. destruct (G1 _ Hin) as [_ Hm]. cbn [fst snd] in Hm. apply Hm. apply Hp. apply in_map_iff. exists r.
    split; [rewrite Hk, value_by_req_spec by (eapply Hr; eauto); reflexivity|]. apply Hwg. eauto. }
  assert (Hpos : forall k v, In (k, v) groups -> 0 <= v).
  { intros k v Hin. destruct (Hg _ _ Hin) as (n & r & Hn & Hin' & _ & ->). assert (A := Hr n r Hn Hin'). assert (B := method_count_range method r A). lia. }
  set (ct := get_contractor scaler groups id).
  assert (Hfst : map fst (ct_workers ct) = map fst groups).
  { unfold ct, get_contractor, stochastic_counts. cbn [ct_workers]. rewrite map_map. reflexivity. }
  assert (Hw : forall k c, In (k, c) (ct_workers ct) <-> exists v, In (k, v) groups /\ c = rand_int (inject_Z v * scaler) (inject_Z v) (inject_Z v * scaler)).
  { intros k c. unfold ct, get_contractor, stochastic_counts. cbn [ct_workers]. rewrite in_map_iff. split.
    - intros ([k' v] & [= <- <-] & Hin). eauto.
    - intros (v & Hin & ->). exists (k, v). auto. }
  assert (Hge : forall k c v, In (k, v) groups -> c = rand_int (inject_Z v * scaler) (inject_Z v) (inject_Z v * scaler) -> v <= c).
  { intros k c v Hin ->. apply rand_int_ge; [eapply Hpos; eauto|].
    rewrite <- (Qmult_1_r (inject_Z v)) at 1. rewrite !(Qmult_comm (inject_Z v)). apply Qmult_le_compat_r; [exact Hsc|].
    change 0%Q with (inject_Z 0). rewrite <- Zle_Qle. eapply Hpos; eauto. }
  assert (Hall : forall k c, In (k, c) (ct_workers ct) -> forall n r, In n nodes -> In r (u_reqs (g_unit g n)) -> r_kind r = k -> method_count method r <= c).
  { intros k c Hin n r Hn Hin' Hk. apply Hw in Hin as (v & Hv & Ec). assert (A := Hmax k v n r Hv Hn Hin' Hk). assert (B := Hge k c v Hv Ec). lia. }
  assert (Hkinds : forall k, In k (map fst (ct_workers ct)) <-> exists n r, In n nodes /\ In r (u_reqs (g_unit g n)) /\ r_kind r = k).
  { intros k. rewrite Hfst. split.
    - intros Hin. apply in_map_iff in Hin as ([k' v] & <- & Hin). destruct (Hg _ _ Hin) as (n & r & A & B & C & _). eauto.
    - intros (n & r & Hn & Hin & <-). apply (G2 (r_kind r) (value_by_req method r)). apply Hp, in_map_iff. exists r. split; [reflexivity|]. apply Hwg. eauto. }
  exists ct. split; [reflexivity|]. split; [reflexivity|]. split; [rewrite Hfst; exact G3|]. split; [exact Hkinds|]. split; [exact Hall|]. split.
  - intros n Hn r Hin. assert (Hk : In (r_kind r) (map fst (ct_workers ct))) by (apply Hkinds; eauto).
    apply in_map_iff in Hk as ([k c] & Ek & Hc). cbn in Ek. subst k. exists c. split; [exact Hc|].
    assert (A := Hall _ _ Hc n r Hn Hin eq_refl). assert (B := method_count_range method r (Hr n r Hn Hin)). lia.
  - intros z k c Ez Hin. apply Hw in Hin as (v & Hv & ->). destruct (Hg _ _ Hv) as (n & r & Hn & Hin & Hk & Ev).
    exists n, r. repeat split; auto. rewrite <- Ev. assert (Hv0 := Hpos _ _ Hv).
    assert (Hz : 1 <= z). { rewrite Ez in Hsc. change 1%Q with (inject_Z 1) in Hsc. rewrite <- Zle_Qle in Hsc. exact Hsc. }
    assert (Eq : (inject_Z v * scaler == inject_Z (z * v))%Q) by (rewrite Ez, inject_Z_mult; ring).
    unfold rand_int. rewrite (py_round_Z (z * v)) by exact Eq.
    assert (P1 : py_int (inject_Z v - EPS) <= z * v).
    { unfold py_int, EPS, Qminus, Qopp, Qplus, inject_Z. cbn [Qnum Qden]. rewrite Z.mul_1_r. change (Z.pos (1 * 1)) with 1. rewrite Z.quot_1_r. nia. }
    assert (P2 : z * v <= py_int (inject_Z v * scaler + EPS)).
    { apply py_int_ge; [nia|]. rewrite Eq. rewrite <- (Qplus_0_r (inject_Z (z * v))) at 1. apply Qplus_le_compat; [apply Qle_refl|discriminate]. }
    lia.
Qed.
Print Assumptions generated_contractor_correct.
(** A scaler below 1 is rejected. *)
Theorem generated_contractor_rejects :
  forall g nodes scaler method id, (scaler < 1)%Q -> get_contractor_by_wg g nodes scaler method id = None.
Proof.
  intros g nodes scaler method id H. unfold get_contractor_by_wg.
  destruct (Qle_bool 1 scaler) eqn:E; [|reflexivity]. apply Qle_bool_iff in E. exfalso. apply (Qlt_not_le _ _ H E).
Qed.
Print Assumptions generated_contractor_rejects.
Example generated_contractor_ex :
  get_contractor_by_wg sx_graph px_nodes 1 MIN 0 = Some (Ct 0 [(0%nat, 2); (1%nat, 1)]) /\
  get_contractor_by_wg sx_graph px_nodes 1 AVG 0 = Some (Ct 0 [(0%nat, 3); (1%nat, 1)]) /\
  get_contractor_by_wg sx_graph px_nodes (5 # 2) MAX 7 = Some (Ct 7 [(0%nat, 10); (1%nat, 5)]).
Proof. repeat split; vm_compute; reflexivity. Qed.

(** ** C52 *)
Lemma nodes_loop_false cs : (forall ct, In ct cs -> NoDup (map fst (ct_workers ct))) -> forall works,
  nodes_loop cs works true 0 = Some false -> exists reqs, In reqs works /\ forall ct, In ct cs -> ~ able ct reqs.
Proof.
  intros Hnd. induction works as [|reqs rest IH]; cbn [nodes_loop]; [discriminate|].
  destruct (contractors_loop cs reqs true 0) as [[flag' num']|] eqn:E; [|discriminate].
  apply contractors_loop_spec in E as (-> & E); [|exact Hnd].
  destruct E as [((ct & Hct & Ha) & ->)|(Hno & ->)]; cbn [Nat.eqb].
  - intros Hb. destruct (IH Hb) as (r & Hr & H). exists r. split; [right; exact Hr|exact H].
  - intros _. exists reqs. split; [left; reflexivity|exact Hno].
Qed.

(** Priorities of which the smallest among a work and everything that depends on it is
    the same along a chain: any priorities if there are no chains; with chains, for
    example the default, the same priority everywhere. *)
Definition priorities_correctable (g : graph) (prio : nat -> Z) : Prop :=
  forall u v, inseparable g u v -> forall m, path0 (depends_on g) u m -> exists m', path0 (depends_on g) v m' /\ prio m' <= prio m.
Definition priorities_consistent (g : graph) (prio : nat -> Z) : Prop :=
  (forall u v, depends_on g u v -> prio u <= prio v) /\ (forall u v, inseparable g u v -> prio u = prio v).
Lemma correct_consistent depth g nodes prio : graph_ok g nodes -> priorities_correctable g prio -> (length nodes <= depth)%nat ->
  exists prio', check_and_correct depth g nodes prio = Some prio' /\ priorities_consistent g prio'.
Proof.
  intros Hg Hc Hd. destruct (priorities_corrected g nodes depth prio) as (p & E & H1 & H2 & _); [apply (gk_acyclic _ _ Hg)| |exact Hd|].
  { intros x y (e & He & _ & <- & <-). apply (gk_closed _ _ Hg e He). }
  exists p. split; [exact E|]. split; [exact H1|]. intros u v Huv. apply Z.le_antisymm.
  - apply H1. destruct Huv as (e & A & B & C & D). exists e. rewrite B. auto.
  - destruct (proj1 (H2 u)) as (m & Hm & ->). destruct (Hc u v Huv m Hm) as (m' & Hm' & Hle). 
    assert (A := proj2 (H2 v) m' Hm'). lia.
Qed.
Lemma consistent_ok g nodes prio : priorities_consistent g prio -> priorities_ok g nodes prio.
Proof.
  intros [H1 H2] x y _ _ (_ & u & v & Hd & Hu & Hv).
  assert (K : forall a b, in_chain g a b -> prio a = prio b).
  { intros a b H. unfold in_chain in H. apply clos_rt_rt1n in H. induction H as [|a c b Hac _ IH]; [reflexivity|]. rewrite (H2 _ _ Hac). exact IH. }
  rewrite (K _ _ Hu), (K _ _ Hv). apply H1, Hd.
Qed.

(** What the pipeline is given besides the contractors: as [default_run]. *)
Record pipeline_ok (g : graph) (nodes : list nat) (table : productivities) (prio : nat -> Z)
       (spec : nat -> work_spec) (apt D Lg : Z) : Prop := {
  po_graph : graph_ok g nodes;
  po_prio : priorities_correctable g prio;
  po_reqs : forall n, reqs_ok (u_reqs (g_unit g n));
  po_volumes : forall n, 0 <= volume_of g n;
  po_chains : chain_accepts g;
  po_chain_kinds : forall h m, is_head g nodes h -> in_chain g h m ->
                     map r_kind (u_reqs (g_unit g m)) = map r_kind (u_reqs (g_unit g h));
  po_service : forall n, u_service (g_unit g n) = true -> u_reqs (g_unit g n) = [];
  po_lags : inseparable_lags_ok g;
  po_start : 0 <= apt;
  po_productivity : forall n r c, In r (u_reqs (g_unit g n)) ->
    exists f, table (r_kind r) = Some f /\ (0 < f c)%Q /\ (inject_Z (r_volume r) <= inject_Z D * f c)%Q;
  po_horizon : 0 <= D /\ 0 <= Lg /\ (forall e, In e (g_edges g) -> e_lag e <= Lg) /\
    2 * (apt + Z.of_nat (S (length nodes)) * (1 + D + Lg)) < TIME_INF
}.
Lemma pipeline_run g nodes table prio prio' spec apt D Lg cs : pipeline_ok g nodes table prio spec apt D Lg ->
  priorities_consistent g prio' -> contractors_ok cs ->
  (forall n, spec_ok (spec n) /\ sp_time (spec n) = None /\ spec_fits cs (u_reqs (g_unit g n)) (spec n)) ->
  spec_complete g spec -> counts_within g spec ->
  default_run g nodes table prio' cs spec apt.
Proof.
  intros H Hp' Hcs Hs Hc Hw. destruct H. constructor; auto; [apply consistent_ok; assumption|].
  destruct po_horizon0 as (H1 & H2 & H3 & H4). exists D, Lg. repeat split; auto.
  intros n r ct Hr _. apply (po_productivity0 n r (ct_id ct) Hr).
Qed.

(** With given contractors, each of which has every profession of the graph: a feasible
    schedule in which all dependencies are respected, or the chains depend on each other
    cyclically, or some work has no allowed contractor with enough workers. *)
Theorem pipeline_with_contractors :
  forall depth g nodes table prio spec apt D Lg cs,
    pipeline_ok g nodes table prio spec apt D Lg -> (length nodes <= depth)%nat -> contractors_ok cs ->
    (forall n, spec_ok (spec n) /\ sp_time (spec n) = None /\ spec_fits cs (u_reqs (g_unit g n)) (spec n)) ->
    spec_complete g spec -> counts_within g spec ->
    (forall ct n r, In ct cs -> In n nodes -> In r (u_reqs (g_unit g n)) -> In (r_kind r) (map fst (ct_workers ct))) ->
    let r := pipeline_schedule depth g nodes prio (Given cs)
               (fun prio' cs => heft_end_default g nodes (default_estimator table g) prio' cs spec apt) in
    (exists sd s, r = Scheduled sd s /\ feasible g cs spec nodes sd /\
       forall e wu wv, In e (g_edges g) -> In (e_from e, wu) sd -> In (e_to e, wv) sd ->
         tadd (sw_finish wu) (e_lag e) <= sw_start wv) \/
    (r = CircularGraph /\ chains_cyclic g nodes) \/
    (r = NotEnoughWorkers /\ exists n, In n nodes /\ nobody_able g cs spec n).
Proof.
  intros depth g nodes table prio spec apt D Lg cs H Hd Hcs Hs Hc Hw Hk. cbv zeta. unfold pipeline_schedule.
  destruct (correct_consistent depth g nodes prio (po_graph _ _ _ _ _ _ _ _ H) (po_prio _ _ _ _ _ _ _ _ H) Hd) as (prio' & -> & Hp'). cbn [pipeline_contractors].
  destruct (contractor_check_answers cs g nodes Hk) as [b Eb]. rewrite Eb. destruct b.
  - destruct (heft_with_default_estimator g nodes table prio' cs spec apt) as [R|[R|(R & n & [Hn _] & Hno)]];
      [eapply pipeline_run; eassumption|left; exact R|right; left; exact R|right; right; split; [exact R|exists n; auto]].
  - right. right. split; [reflexivity|]. apply nodes_loop_false in Eb as (reqs & Hr & Hno); [|intros ct Hct; apply (proj2 Hcs ct Hct)].
    apply in_map_iff in Hr as (n & <- & Hn). exists n. split; [exact Hn|]. intros ct Hct _. apply Hno, Hct.
Qed.
Print Assumptions pipeline_with_contractors.

(** With generated contractors: any method, at least one contractor, any scaler of at least
    1, and no restrictions by a specification. There is always a schedule, unless the
    chains depend on each other cyclically. *)
Theorem pipeline_with_generated_contractors :
  forall depth g nodes table prio spec apt D Lg method number scaler,
    pipeline_ok g nodes table prio spec apt D Lg -> (length nodes <= depth)%nat ->
    (forall n, sp_contractors (spec n) = [] /\ sp_workers (spec n) = [] /\ sp_time (spec n) = None) ->
    (1 <= number)%nat -> (1 <= scaler)%Q ->
    let r := pipeline_schedule depth g nodes prio (Generate method number scaler)
               (fun prio' cs => heft_end_default g nodes (default_estimator table g) prio' cs spec apt) in
    (exists cs sd s, pipeline_contractors g nodes (Generate method number scaler) = Some cs /\ length cs = number /\
       r = Scheduled sd s /\ feasible g cs spec nodes sd /\
       forall e wu wv, In e (g_edges g) -> In (e_from e, wu) sd -> In (e_to e, wv) sd ->
         tadd (sw_finish wu) (e_lag e) <= sw_start wv) \/
    (r = CircularGraph /\ chains_cyclic g nodes).
Proof.
  intros depth g nodes table prio spec apt D Lg method number scaler H Hd Hspec Hnum Hsc. cbv zeta.
  assert (Hr : forall n r, In n nodes -> In r (u_reqs (g_unit g n)) -> 0 <= r_min r <= r_max r).
  { intros n r _ Hin. destruct (po_reqs _ _ _ _ _ _ _ _ H n) as [_ F]. rewrite Forall_forall in F. apply F, Hin. }
  assert (Hgen : forall i k, exists cs,
    fold_right (fun i acc => match get_contractor_by_wg g nodes scaler method i, acc with
                             | Some c, Some l => Some (c :: l) | _, _ => None end) (Some []) (seq i k) = Some cs /\
    map ct_id cs = seq i k /\
    forall ct, In ct cs -> exists id, get_contractor_by_wg g nodes scaler method id = Some ct).
  { intros i k. revert i. induction k as [|k IH]; intros i; cbn [seq fold_right]; [exists []; repeat split; auto; intros ct []|].
    destruct (generated_contractor_correct g nodes scaler method i Hsc Hr) as (ct & E & Eid & _).
    destruct (IH (S i)) as (cs & E1 & E2 & E3). rewrite E, E1. exists (ct :: cs). split; [reflexivity|].
    split; [simpl; rewrite Eid, E2; reflexivity|]. intros ct' [<-|Hin]; [eauto|apply E3, Hin]. }
  destruct (Hgen 0%nat number) as (cs & E & Eids & Eall).
  assert (Hlen : length cs = number) by (rewrite <- (map_length ct_id cs), Eids; apply seq_length).
  assert (Hprops : forall ct, In ct cs -> NoDup (map fst (ct_workers ct)) /\
    (forall k, In k (map fst (ct_workers ct)) <-> exists n r, In n nodes /\ In r (u_reqs (g_unit g n)) /\ r_kind r = k) /\
    (forall k c, In (k, c) (ct_workers ct) -> 0 <= c) /\
    (forall n, In n nodes -> able ct (u_reqs (g_unit g n)))).
  { intros ct Hct. destruct (Eall ct Hct) as [id Eid].
    destruct (generated_contractor_correct g nodes scaler method id Hsc Hr) as (ct' & E' & _ & G1 & G2 & G3 & G4 & _).
    rewrite E' in Eid. injection Eid as ->. split; [exact G1|]. split; [exact G2|]. split; [|exact G4].
    intros k c Hin. assert (Hk : In k (map fst (ct_workers ct))) by (apply (in_map fst) in Hin; exact Hin).
    apply G2 in Hk as (n & r & Hn & Hin' & Hk). assert (A := G3 k c Hin n r Hn Hin' Hk).
    assert (B := method_count_range method r (Hr n r Hn Hin')). assert (C := Hr n r Hn Hin'). lia. }
  assert (Hcs : contractors_ok cs).
  { split; [rewrite Eids; apply seq_NoDup|]. intros c Hc. destruct (Hprops c Hc) as (P1 & _ & P3 & _). split; [exact P1|exact P3]. }
  assert (HS : forall n, spec_ok (spec n) /\ sp_time (spec n) = None /\ spec_fits cs (u_reqs (g_unit g n)) (spec n)).
  { intros n. destruct (Hspec n) as (S1 & S2 & S3). unfold spec_ok, spec_fits. rewrite S2, S3. split; [split; [intros k m []|exact I]|].
    split; [reflexivity|]. split; [intros ct k m x _ _ []|]. intros El r Hin. destruct (u_reqs (g_unit g n)); [destruct Hin|discriminate]. }
  assert (R := pipeline_with_contractors depth g nodes table prio spec apt D Lg cs H Hd Hcs HS).
  unfold pipeline_schedule in *. cbn [pipeline_contractors] in *. rewrite E.
  cbv zeta in R. destruct R as [(sd & s & R1 & R2)|[R|(_ & n & Hn & Hno)]].
  - intros n. left. apply Hspec.
  - intros n r x _ Hx. destruct (Hspec n) as (_ & S2 & _). rewrite S2 in Hx. destruct Hx.
  - intros ct n r Hct Hn Hin. apply (Hprops ct Hct). eauto.
  - left. exists cs, sd, s. auto.
  - right. exact R.
  - exfalso. destruct cs as [|ct cs']; [simpl in Hlen; lia|].
    apply (Hno ct (or_introl eq_refl)); [left; apply Hspec|]. apply (Hprops ct (or_introl eq_refl)). exact Hn.
Qed.
Print Assumptions pipeline_with_generated_contractors.

(** The graph of [sx_graph] with the default settings of the pipeline: contractors
    generated by AVG, one contractor, scaler 1. The priorities contradict the dependencies. *)
Definition ex_prio (n : nat) : Z := 5 - Z.of_nat (Nat.min n 5).
Example pipeline_ex_ok : pipeline_ok sx_graph px_nodes ex_table ex_prio (fun _ => WSpec [] [] None false) 0 12 2.
Proof.
  destruct default_run_ex. constructor; auto.
  - intros u v (e & He & Ht & <- & <-) m _. simpl in He. repeat destruct He as [<-|He]; try tauto; try discriminate.
    exists 5%nat. split; [|unfold ex_prio; lia].
    apply rt_trans with 4%nat; apply rt_step; apply parents_in; vm_compute; tauto.
  - intros n r c Hr. exists (fun _ => 1%Q). destruct n as [|[|[|[|[|n]]]]]; cbn in Hr; repeat destruct Hr as [<-|Hr]; try tauto;
      (split; [reflexivity|]; split; [reflexivity|cbn; discriminate]).
  - split; [lia|]. split; [lia|]. split; [|change TIME_INF with 2000000000; simpl; lia].
    intros e He. simpl in He. repeat destruct He as [<-|He]; try tauto; simpl; lia.
Qed.
Example pipeline_ex :
  match pipeline_schedule 10 sx_graph px_nodes ex_prio (Generate AVG 1 1)
          (fun prio' cs => heft_end_default sx_graph px_nodes (default_estimator ex_table sx_graph) prio' cs (fun _ => WSpec [] [] None false) 0)
  with Scheduled sd _ => length (times sd) | _ => O end = 6%nat.
Proof. vm_compute. reflexivity. Qed.
