(** Properties C11 - C13, C18: schedules built by the list scheduler. Vocabulary:
    [ScheduleSpec], [MomentumSpec]. *)
From Coq Require Import ZArith List Bool Lia Arith ZifyBool ZifyNat.
From Verif Require Import TimeModel MomentumModel MomentumSpec MomentumHistory MomentumTeamProofs
  GraphModel ScheduleModel ScheduleSpec TeamProofs ContractorTheorems ScheduleInv SchedulePoolProofs ScheduleSafe.
Import ListNotations.
Local Open Scope Z_scope.

(** C11. [nodes] are the head nodes in the order of scheduling and [chains] their
    inseparable chains; the order is a permutation without repetition in which every
    edge goes forward. *)
Theorem momentum_schedule_feasible :
  forall g est optimize cs spec apt nodes chains sd s,
    contractors_ok cs -> estimator_ok est ->
    (forall n c sd s, optimizer_ok (optimize n c sd s)) ->
    (forall n, reqs_ok (reqs_of g n)) -> (forall n, 0 <= volume_of g n) -> (forall n, spec_ok (spec n)) ->
    0 <= apt <= TIME_INF ->
    chains_of g nodes = Some chains -> NoDup (concat chains) -> Z.of_nat (length nodes) < TIME_INF ->
    (forall e, In e (g_edges g) -> In (e_from e) (concat chains) -> In (e_to e) (concat chains) ->
       comes_before (concat chains) (e_from e) (e_to e)) ->
    momentum_build g est optimize cs spec apt nodes = Done (sd, s) ->
    (* every work once, in this order *)
    map fst sd = rev (concat chains) /\
    (* proper intervals *)
    (forall n w, In (n, w) sd -> 0 <= sw_start w <= sw_finish w /\ sw_finish w <= TIME_INF) /\
    (* predecessors outside the chain *)
    (forall e wu wv, In e (g_edges g) -> In (e_from e, wu) sd -> In (e_to e, wv) sd ->
       ~ same_chain chains (e_from e) (e_to e) -> not_pinned spec chains (e_to e) ->
       tadd (sw_finish wu) (e_lag e) <= sw_start wv) /\
    (* chains *)
    (forall c u v wu wv, In c chains -> comes_before c u v -> In (u, wu) sd -> In (v, wv) sd ->
       sw_finish wu <= sw_start wv /\ sw_team wu = sw_team wv /\ sw_contractor wu = sw_contractor wv) /\
    (* teams *)
    (forall hd r n w, In (hd :: r) chains -> In n (hd :: r) -> In (n, w) sd -> staffed g cs spec hd w) /\
    (* capacities *)
    (forall ct k n t, In ct cs -> In (k, n) (ct_workers ct) ->
       busy (schedule_bookings sd) (ct_id ct, k) t <= n).
Proof. exact build_feasible. Qed.
Print Assumptions momentum_schedule_feasible.

(** A concrete case: a service start 0, a chain 1 - 2 of inseparable works, a work 3
    that follows the start with a lag of 2 days, a work 4 after 2 and 3 (lag 1) restricted
    to contractor 1, and a service end 5. *)
Definition sx_graph : graph :=
  Gr [Ed 0 1 0 FS; Ed 1 2 0 IFS; Ed 0 3 2 FS; Ed 2 4 0 FS; Ed 3 4 1 FS; Ed 4 5 0 FS]
     (fun n => match n with
               | 1 | 2 => WU false [Req 0 12 1 3; Req 1 6 1 2] 10
               | 3 => WU false [Req 0 4 2 4] 5
               | 4 => WU false [Req 0 4 2 2; Req 1 2 1 2] 7
               | _ => WU true [] 0
               end%nat).
Definition sx_est (n : nat) (team : list worker) : Z :=
  match team with
  | [] => 0
  | w :: _ => if w_count w <? 2 then 10 + Z.of_nat (Nat.min n 5) else 5 + Z.of_nat (Nat.min n 5)
  end.
Definition sx_contractors : list contractor := [Ct 0 [(0%nat, 3); (1%nat, 2)]; Ct 1 [(0%nat, 2); (1%nat, 1)]].
Definition sx_spec (n : nat) : work_spec :=
  if Nat.eqb n 4 then WSpec [1%nat] [] None false else WSpec [] [] None false.
Definition sx_optimize (n c : nat) (sd : sched) (s : mstate) := min_optimizer.
Definition sx_nodes : list nat := [0; 1; 3; 4; 5]%nat.
Definition sx_chains : list (list nat) := [[0]; [1; 2]; [3]; [4]; [5]]%nat.
Definition sx_result := momentum_build sx_graph sx_est sx_optimize sx_contractors sx_spec 0 sx_nodes.
(** Decides [comes_before] on lists without repetition. *)
Lemma comes_before_cons {A} (x : A) l a b : comes_before l a b -> comes_before (x :: l) a b.
Proof. intros (l1 & l2 & l3 & ->). exists (x :: l1), l2, l3. reflexivity. Qed.
Lemma comes_before_head {A} (a : A) l b : In b l -> comes_before (a :: l) a b.
Proof. intros H. apply in_split in H as (l2 & l3 & ->). exists [], l2, l3. reflexivity. Qed.
Ltac before := solve [repeat first [apply comes_before_head; simpl; tauto | apply comes_before_cons]].
Lemma min_optimizer_answers {S : Type} find reqs cs spec apt :
  @optimizer_answers S find (fun _ _ _ _ => min_optimizer) reqs cs spec apt.
Proof.
  intros n c sd s bs _ Hne _. unfold optimize_using_spec, min_optimizer. rewrite map_length.
  destruct (Nat.eqb_spec (length (sp_workers (spec n))) (length bs)); [contradiction|].
  destruct (sp_workers (spec n)); discriminate.
Qed.
Example sx_hypotheses :
  contractors_ok sx_contractors /\ estimator_ok sx_est /\
  (forall n c sd s, optimizer_ok (sx_optimize n c sd s)) /\
  optimizer_answers (momentum_times sx_graph sx_est) sx_optimize (reqs_of sx_graph) sx_contractors sx_spec 0 /\
  (forall n, reqs_ok (reqs_of sx_graph n)) /\ (forall n, 0 <= volume_of sx_graph n) /\ (forall n, spec_ok (sx_spec n)) /\
  0 <= 0 <= TIME_INF /\
  chains_of sx_graph sx_nodes = Some sx_chains /\ NoDup (concat sx_chains) /\ Z.of_nat (length sx_nodes) < TIME_INF /\
  (forall e, In e (g_edges sx_graph) -> In (e_from e) (concat sx_chains) -> In (e_to e) (concat sx_chains) ->
     comes_before (concat sx_chains) (e_from e) (e_to e)) /\
  (0 <= 15 /\ estimates_bounded sx_graph sx_est sx_contractors sx_spec 15) /\ (0 <= 2 /\ forall e, In e (g_edges sx_graph) -> e_lag e <= 2) /\
  2 * (0 + Z.of_nat (length (concat sx_chains)) * (15 + 2)) < TIME_INF /\
  (forall n, sp_time (sx_spec n) = None) /\ (forall n, spec_fits sx_contractors (reqs_of sx_graph n) (sx_spec n)) /\
  (forall n, u_service (g_unit sx_graph n) = true -> reqs_of sx_graph n = []) /\
  (forall n c m, chain_of sx_graph n = Some c -> In m c -> map r_kind (reqs_of sx_graph m) = map r_kind (reqs_of sx_graph n)).
Proof.
  assert (Hr : forall n, reqs_ok (reqs_of sx_graph n)).
  { intros [|[|[|[|[|n]]]]]; cbn; split; repeat constructor; simpl; try lia; tauto. }
  assert (He : forall n team, 0 <= sx_est n team <= 15).
  { intros n [|w team]; cbn [sx_est]; [lia|]. destruct (_ <? _); lia. }
  repeat match goal with |- _ /\ _ => split end.
  - unfold contractors_ok. split; [repeat constructor; simpl; intuition lia|].
    intros c [<-|[<-|[]]]; simpl; (split; [repeat constructor; simpl; intuition lia|]); intros k n H; simpl in H; intuition congruence || (intuition; match goal with H : (_, _) = (_, _) |- _ => injection H as <- <- end; lia).
  - intros n team. assert (H := He n team). change TIME_INF with 2000000000. lia.
  - intros. exact min_optimizer_ok.
  - apply min_optimizer_answers.
  - exact Hr.
  - intros [|[|[|[|[|n]]]]]; cbn; lia.
  - intros n. unfold sx_spec. destruct (Nat.eqb n 4); split; simpl; auto; tauto.
  - lia.
  - change TIME_INF with 2000000000. lia.
  - reflexivity.
  - cbn. repeat constructor; simpl; intuition lia.
  - change TIME_INF with 2000000000. simpl. lia.
  - intros e He'. simpl in He'. repeat destruct He' as [<-|He']; try tauto; intros _ _; cbn [sx_chains concat app e_from e_to]; before.
  - lia.
  - intros n c m ct team _ _ _ _. apply He.
  - lia.
  - intros e He'. simpl in He'. repeat destruct He' as [<-|He']; try tauto; simpl; lia.
  - change TIME_INF with 2000000000. simpl. lia.
  - intros n. unfold sx_spec. destruct (Nat.eqb n 4); reflexivity.
  - intros n. unfold sx_spec. destruct (Nat.eqb n 4); split; simpl; try tauto; intros H; destruct (reqs_of sx_graph n); simpl in *; try tauto; discriminate.
  - intros [|[|[|[|[|n]]]]]; cbn; auto; discriminate.
  - intros [|[|[|[|[|[|n]]]]]] c m H Hin; cbn in H; injection H as <-; simpl in Hin;
      repeat destruct Hin as [<-|Hin]; try tauto; reflexivity.
Qed.
Example sx_schedule :
  match sx_result with
  | Done (sd, _) => map (fun x => (fst x, sw_start (snd x), sw_finish (snd x), sw_contractor (snd x),
                                   map w_count (sw_team (snd x)))) (rev sd)
  | _ => []
  end
  = [(0%nat, 0, 0, 1%nat, []); (1%nat, 0, 11, 1%nat, [1; 1]);
     (2%nat, 11, 23, 1%nat, [1; 1]); (3%nat, 2, 10, 0%nat, [2]);
     (4%nat, 23, 32, 1%nat, [2; 1]); (5%nat, 32, 32, 1%nat, [])].
Proof. vm_compute. reflexivity. Qed.

(** C12. [D] bounds the estimates and [Lg] the lags; the horizon they give must be below
    half of the infinite time. No execution times are assigned by the specification, the
    named worker counts are within the contractors' workforces, service works need no
    workers and the works of a chain need the same kinds. *)
Theorem momentum_schedule_never_crashes :
  forall g est optimize cs spec apt D Lg nodes chains,
    contractors_ok cs -> estimator_ok est ->
    (forall n c sd s, optimizer_ok (optimize n c sd s)) ->
    optimizer_answers (momentum_times g est) optimize (reqs_of g) cs spec apt ->
    (forall n, reqs_ok (reqs_of g n)) -> (forall n, 0 <= volume_of g n) -> (forall n, spec_ok (spec n)) ->
    0 <= apt <= TIME_INF ->
    chains_of g nodes = Some chains -> NoDup (concat chains) ->
    (forall e, In e (g_edges g) -> In (e_from e) (concat chains) -> In (e_to e) (concat chains) ->
       comes_before (concat chains) (e_from e) (e_to e)) ->
    (0 <= D /\ estimates_bounded g est cs spec D) -> (0 <= Lg /\ forall e, In e (g_edges g) -> e_lag e <= Lg) ->
    2 * (apt + Z.of_nat (length (concat chains)) * (D + Lg)) < TIME_INF -> Z.of_nat (length nodes) < TIME_INF ->
    (forall n, sp_time (spec n) = None) -> (forall n, spec_fits cs (reqs_of g n) (spec n)) ->
    (forall n, u_service (g_unit g n) = true -> reqs_of g n = []) ->
    (forall n c m, chain_of g n = Some c -> In m c -> map r_kind (reqs_of g m) = map r_kind (reqs_of g n)) ->
    (* a schedule, or: some work has no allowed contractor with enough workers *)
    (exists sd s, momentum_build g est optimize cs spec apt nodes = Done (sd, s)) \/
    (momentum_build g est optimize cs spec apt nodes = NoContractor /\
     exists n, In n nodes /\
       forall ct, In ct cs -> (sp_contractors (spec n) = [] \/ In (ct_id ct) (sp_contractors (spec n))) ->
                  ~ able ct (u_reqs (g_unit g n))).
Proof.
  intros g est optimize cs spec apt D Lg nodes chains H1 H2 H3 H3' H4 H5 H6 H7 H8 H9 H10 H11 H12 H13 H14 H15 H16 H17 H18.
  assert (R := build_never_crashes g est optimize cs spec apt D Lg nodes chains H1 H2 H3 H3' H4 H5 H6 H7 H8 H9 H10 H11 H12 H13 H14 H15 H16 H17 H18).
  destruct (momentum_build g est optimize cs spec apt nodes) as [[sd s]| |]; [left; eauto|right; eauto|contradiction].
Qed.
Print Assumptions momentum_schedule_never_crashes.
(** [sx_hypotheses] and [sx_schedule] show a case with a schedule. Without contractor 1
    the second alternative holds. *)
Example sx_no_contractor :
  momentum_build sx_graph sx_est sx_optimize [Ct 0 [(0%nat, 3); (1%nat, 2)]] sx_spec 0 sx_nodes = NoContractor.
Proof. vm_compute. reflexivity. Qed.

(** Finding: an execution time assigned by the specification that exceeds the estimate
    makes the booking trip the timeline's assertion. Work 2 (lag 20) is booked for
    [20, 25); work 3 is searched a gap for its estimate of 5 and booked for 100. *)
Definition sy_graph : graph :=
  Gr [Ed 0 1 0 FS; Ed 0 2 20 FS; Ed 0 3 0 FS]
     (fun n => match n with 0 => WU true [] 0 | _ => WU false [Req 0 1 1 1] 1 end%nat).
Definition sy_est (n : nat) (team : list worker) : Z := match team with [] => 0 | _ => 5 end.
Theorem momentum_assigned_time_can_crash :
  exists g est cs spec nodes,
    (forall n, spec_ok (spec n)) /\
    momentum_build g est sx_optimize cs spec 0 nodes = Crash /\
    (exists r, momentum_build g est sx_optimize cs (fun _ => WSpec [] [] None false) 0 nodes = Done r).
Proof.
  exists sy_graph, sy_est, [Ct 0 [(0%nat, 1)]],
    (fun n => if Nat.eqb n 3 then WSpec [] [] (Some 100) false else WSpec [] [] None false), [0; 1; 2; 3]%nat.
  split; [|split].
  - intros n. destruct (Nat.eqb n 3); split; simpl; try tauto; change TIME_INF with 2000000000; lia.
  - vm_compute. reflexivity.
  - eexists. vm_compute. reflexivity.
Qed.
Print Assumptions momentum_assigned_time_can_crash.
