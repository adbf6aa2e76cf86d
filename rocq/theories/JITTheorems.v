(** Theorems C08-C10: the release-time (just-in-time) timeline. *)
From Coq Require Import ZArith List Bool Lia.
From Verif Require Import TimeModel MomentumModel MomentumSpec MomentumHistory JITModel JITHistory JITProofs.
Import ListNotations.
Local Open Scope Z_scope.

(** Two kinds of one contractor, and three works, one of them independent. *)
Definition jex_pool : pool := [((0, 0)%nat, 5); ((0, 1)%nat, 2)].
Definition jex_requests : list jrequest :=
  [JR 0 0 10 false [((0, 0)%nat, 3); ((0, 1)%nat, 2)];
   JR 0 2 7 false [((0, 0)%nat, 2)];
   JR 3 10 12 true [((0, 0)%nat, 1)];
   JR 0 12 20 false [((0, 0)%nat, 4); ((0, 1)%nat, 1)]].
Lemma jex_pool_ok : pool_ok jex_pool.
Proof. intros a n [[= <- <-]|[[= <- <-]|[]]]; lia. Qed.
Lemma jex_ok : Forall (fun r => jr_start r <= jr_finish r /\ team_within jex_pool (jr_team r)) jex_requests.
Proof.
  repeat (apply Forall_cons; [split; [simpl; lia|split;
    [simpl; repeat (constructor; [simpl; intuition congruence|]); constructor|
     intros a n Hin; simpl in Hin;
     repeat (destruct Hin as [[= <- <-]|Hin]; [eexists; split; [reflexivity|lia]|]); destruct Hin]]|]).
  apply Forall_nil.
Qed.

(** C08: whatever finish times the bookings carry, every booking of teams within the
    workforce succeeds, the workers accounted for are exactly the workforce, no group is
    negative and groups are in order of release time. *)
Theorem jit_conserves_workers_in_order :
  forall p rs, pool_ok p -> Forall (fun r => team_within p (jr_team r)) rs ->
    exists tl, run_updates rs (jit_init p) = Some tl /\
      forall a cap, capacity p a = Some cap ->
        exists st, jt_get tl a = Some st /\ accounted st = cap /\
                   (forall g, In g st -> 0 <= snd g) /\ ordered st.
Proof. exact jit_conserves. Qed.
Print Assumptions jit_conserves_workers_in_order.
Example jit_conserves_ex :
  match run_updates (firstn 2 jex_requests) (jit_init jex_pool) with
  | Some tl => jt_get tl (0, 0)%nat | None => None end = Some [(7, 2); (10, 3)] /\
  match run_updates jex_requests (jit_init jex_pool) with
  | Some tl => jt_get tl (0, 1)%nat | None => None end = Some [(10, 1); (20, 1)].
Proof. vm_compute. split; reflexivity. Qed.

(** C09: the answer for a team. *)
Theorem jit_start_earliest :
  forall p rs tl team lb, pool_ok p -> Forall (fun r => team_within p (jr_team r)) rs ->
    run_updates rs (jit_init p) = Some tl -> team_within p team ->
    exists r, find_agents_time false (to_workers team) tl lb = Some r /\ lb <= r /\
      (forall a n, In (a, n) team -> exists st, jt_get tl a = Some st /\ n <= released st r) /\
      (forall t, lb <= t < r -> exists a n st, In (a, n) team /\ jt_get tl a = Some st /\ released st t < n).
Proof. exact jit_earliest. Qed.
Print Assumptions jit_start_earliest.
(** C09 for an independent work: all workers of the kinds of the team are released. *)
Theorem jit_start_independent :
  forall p rs tl team lb, pool_ok p -> Forall (fun r => team_within p (jr_team r)) rs ->
    run_updates rs (jit_init p) = Some tl -> team_within p team ->
    exists r, find_agents_time true (to_workers team) tl lb = Some r /\ lb <= r /\
      (forall a n, In (a, n) team -> exists st, jt_get tl a = Some st /\ forall g, In g st -> fst g <= r).
Proof. exact jit_earliest_independent. Qed.
Print Assumptions jit_start_independent.
(** C09: the worker part of the can-schedule-now check is exact. *)
Theorem jit_workers_free_exact :
  forall p rs tl team start, pool_ok p -> Forall (fun r => team_within p (jr_team r)) rs ->
    run_updates rs (jit_init p) = Some tl -> team_within p team -> 0 <= start ->
    exists b, jit_workers_free false (to_workers team) start tl = Some b /\
      (b = true <-> forall a n, In (a, n) team -> exists st, jt_get tl a = Some st /\ n <= released st start).
Proof. exact jit_workers_free_spec. Qed.
Print Assumptions jit_workers_free_exact.
Example jit_start_ex :
  match run_updates (firstn 2 jex_requests) (jit_init jex_pool) with
  | Some tl => (find_agents_time false (to_workers [((0, 0)%nat, 2)]) tl 3,
                find_agents_time false (to_workers [((0, 0)%nat, 4)]) tl 3,
                find_agents_time true (to_workers [((0, 0)%nat, 1)]) tl 3,
                jit_workers_free false (to_workers [((0, 0)%nat, 2)]) 6 tl,
                jit_workers_free false (to_workers [((0, 0)%nat, 2)]) 7 tl)
  | None => (None, None, None, None, None) end = (Some 7, Some 10, Some 10, Some false, Some true).
Proof. vm_compute. reflexivity. Qed.

(** C10: works started not before the timeline's answer never overbook. *)
Theorem jit_never_overbooks :
  forall p rs tl a cap t, pool_ok p ->
    Forall (fun r => jr_start r <= jr_finish r /\ team_within p (jr_team r)) rs ->
    run_placed rs (jit_init p) = Some tl -> capacity p a = Some cap ->
    busy (all_jbooked rs) a t <= cap.
Proof. exact jit_safe. Qed.
Print Assumptions jit_never_overbooks.
Example jit_never_overbooks_ex :
  (exists tl, run_placed jex_requests (jit_init jex_pool) = Some tl) /\
  busy (all_jbooked jex_requests) (0, 0)%nat 3 = 5.
Proof. split; [eexists|]; vm_compute; reflexivity. Qed.

(** Finding: a team larger than the workforce (up to twice as large) is answered and
    booked without any error, because the index of the search wraps round; a group of a
    negative number of workers appears. *)
Theorem jit_oversized_team_accepted :
  exists p team tl g,
    pool_ok p /\
    find_agents_time false (to_workers team) (jit_init p) 0 = Some 0 /\
    jit_update false 9 (to_workers team) (jit_init p) = Some tl /\
    jt_get tl (0, 0)%nat = Some g /\ In (0, -1) g.
Proof.
  exists [((0, 0)%nat, 2)], [((0, 0)%nat, 3)]. eexists. eexists.
  split; [intros a n [[= <- <-]|[]]; lia|]. vm_compute. repeat split; try reflexivity. left; reflexivity.
Qed.
Print Assumptions jit_oversized_team_accepted.
