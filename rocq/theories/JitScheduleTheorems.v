(** Properties C13, C46 and C47: schedules built through the release-time timeline.
    Vocabulary: [ScheduleSpec], [MomentumSpec]. *)
From Coq Require Import ZArith List Bool Lia.
From Verif Require Import TimeModel MomentumModel MomentumSpec JITModel GraphModel ScheduleModel ScheduleSpec
  TeamProofs ContractorTheorems JitScheduleInv JitScheduleSafe ScheduleTheorems.
Import ListNotations.
Local Open Scope Z_scope.

(** C13. Any sequence of calls of the schedule method, with any teams, specifications,
    start times and estimator, on any timeline and any schedule that already has the
    property. *)
Theorem jit_precedence :
  forall g est calls sd s sd' s',
    starts_after_predecessors g sd ->
    jit_calls g est calls sd s = Some (sd', s') ->
    starts_after_predecessors g sd'.
Proof. exact jit_calls_prec. Qed.
Print Assumptions jit_precedence.
(** the empty schedule has the property; a work asked to start at 0 waits *)
Definition jx_calls : list schedule_call :=
  [SCall 0 [] 0 (WSpec [] [] None false) (Some 3) 0;
   SCall 1 [Wk 0 0 2; Wk 0 1 1] 0 (WSpec [] [] None false) (Some 0) 0;
   SCall 3 [Wk 0 0 2] 0 (WSpec [] [] (Some 4) false) None 0;
   SCall 4 [Wk 0 0 2; Wk 0 1 2] 0 (WSpec [] [] None false) (Some 1) 0].
Example jit_precedence_ex :
  starts_after_predecessors sx_graph [] /\
  match jit_calls sx_graph sx_est jx_calls [] (jit_init (pool_of sx_contractors)) with
  | Some (sd, _) => map (fun x => (fst x, sw_start (snd x), sw_finish (snd x))) (rev sd)
  | None => []
  end = [(0%nat, 3, 3); (1%nat, 3, 9); (2%nat, 9, 16); (3%nat, 16, 20); (4%nat, 21, 30)].
Proof. split; [intros l1 v w l2 E; destruct l1; discriminate|vm_compute; reflexivity]. Qed.

(** C46. The list scheduler over the release-time timeline: the same conclusion as for
    the interval timeline, and precedence without exceptions. *)
Theorem jit_schedule_feasible :
  forall g est optimize cs spec apt nodes chains sd s,
    contractors_ok cs -> estimator_ok est ->
    (forall n c sd s, optimizer_ok (optimize n c sd s)) ->
    (forall n, reqs_ok (reqs_of g n)) -> (forall n, 0 <= volume_of g n) -> (forall n, spec_ok (spec n)) ->
    (forall n, spec_fits cs (reqs_of g n) (spec n)) ->
    0 <= apt <= TIME_INF ->
    chains_of g nodes = Some chains -> NoDup (concat chains) ->
    (forall e, In e (g_edges g) -> In (e_from e) (concat chains) -> In (e_to e) (concat chains) ->
       comes_before (concat chains) (e_from e) (e_to e)) ->
    jit_build g est optimize cs spec apt nodes = Done (sd, s) ->
    (* every work once, in this order *)
    map fst sd = rev (concat chains) /\
    (* proper intervals *)
    (forall n w, In (n, w) sd -> 0 <= sw_start w <= sw_finish w /\ sw_finish w <= TIME_INF) /\
    (* predecessors *)
    (forall e wu wv, In e (g_edges g) -> In (e_from e, wu) sd -> In (e_to e, wv) sd ->
       tadd (sw_finish wu) (e_lag e) <= sw_start wv) /\
    (* chains *)
    (forall c u v wu wv, In c chains -> comes_before c u v -> In (u, wu) sd -> In (v, wv) sd ->
       sw_finish wu <= sw_start wv /\ sw_team wu = sw_team wv /\ sw_contractor wu = sw_contractor wv) /\
    (* teams *)
    (forall hd r n w, In (hd :: r) chains -> In n (hd :: r) -> In (n, w) sd -> staffed g cs spec hd w) /\
    (* capacities *)
    (forall ct k n t, In ct cs -> In (k, n) (ct_workers ct) ->
       busy (schedule_bookings sd) (ct_id ct, k) t <= n).
Proof. exact jit_build_feasible. Qed.
Print Assumptions jit_schedule_feasible.
(** [sx_hypotheses] lists the hypotheses for the example graph. *)
Definition jx_optimize (n c : nat) (sd : sched) (s : jtimeline) := min_optimizer.
Example jx_schedule :
  (forall n c sd s, optimizer_ok (jx_optimize n c sd s)) /\
  optimizer_answers (jit_find sx_graph sx_est) jx_optimize (reqs_of sx_graph) sx_contractors sx_spec 0 /\
  match jit_build sx_graph sx_est jx_optimize sx_contractors sx_spec 0 sx_nodes with
  | Done (sd, _) => map (fun x => (fst x, sw_start (snd x), sw_finish (snd x), sw_contractor (snd x),
                                   map w_count (sw_team (snd x)))) (rev sd)
  | _ => []
  end
  = [(0%nat, 0, 0, 1%nat, []); (1%nat, 0, 11, 1%nat, [1; 1]);
     (2%nat, 11, 23, 1%nat, [1; 1]); (3%nat, 2, 10, 0%nat, [2]);
     (4%nat, 23, 32, 1%nat, [2; 1]); (5%nat, 32, 32, 1%nat, [])].
Proof. split; [intros; exact min_optimizer_ok|split; [apply min_optimizer_answers|vm_compute; reflexivity]]. Qed.

(** C47. The list scheduler over the release-time timeline fails only when a work has no
    able contractor. Heads of chains have no inseparable predecessor. *)
Theorem jit_schedule_never_crashes :
  forall g est optimize cs spec apt D Lg nodes chains,
    contractors_ok cs -> estimator_ok est ->
    (forall n c sd s, optimizer_ok (optimize n c sd s)) ->
    optimizer_answers (jit_find g est) optimize (reqs_of g) cs spec apt ->
    (forall n, reqs_ok (reqs_of g n)) -> (forall n, 0 <= volume_of g n) -> (forall n, spec_ok (spec n)) ->
    (forall n, spec_fits cs (reqs_of g n) (spec n)) ->
    0 <= apt <= TIME_INF ->
    single_inseparable_parent g -> inseparable_lags_ok g ->
    chains_of g nodes = Some chains -> NoDup (concat chains) ->
    (forall n, In n nodes -> inseparable_parent g n = None) ->
    (0 <= D /\ estimates_bounded g est cs spec D) -> (0 <= Lg /\ forall e, In e (g_edges g) -> e_lag e <= Lg) ->
    2 * (apt + Z.of_nat (length (concat chains)) * (D + Lg)) < TIME_INF ->
    (forall n, sp_time (spec n) = None) ->
    (exists sd s, jit_build g est optimize cs spec apt nodes = Done (sd, s)) \/
    (jit_build g est optimize cs spec apt nodes = NoContractor /\
     exists n, In n nodes /\
       forall ct, In ct cs -> (sp_contractors (spec n) = [] \/ In (ct_id ct) (sp_contractors (spec n))) ->
                  ~ able ct (u_reqs (g_unit g n))).
Proof.
  intros g est optimize cs spec apt D Lg nodes chains H1 H2 H3 H3' H4 H5 H6 H7 H8 H9 H10 H11 H12 H13 H14 H15 H16 H17.
  assert (R := jit_build_never_crashes g est optimize cs spec apt D Lg nodes chains H1 H2 H3 H3' H4 H5 H6 H7 H8 H9 H10 H11 H12 H13 H14 H15 H16 H17).
  destruct (jit_build g est optimize cs spec apt nodes) as [[sd s]| |]; [left; eauto|right; eauto|contradiction].
Qed.
Print Assumptions jit_schedule_never_crashes.
Example jx_hypotheses :
  single_inseparable_parent sx_graph /\ inseparable_lags_ok sx_graph /\
  (forall n, In n sx_nodes -> inseparable_parent sx_graph n = None).
Proof.
  split; [|split].
  - intros e e' He He'. simpl in He, He'. repeat destruct He as [<-|He]; try tauto; intros; try discriminate;
      repeat destruct He' as [<-|He']; try tauto; try discriminate; reflexivity.
  - intros e He. simpl in He. repeat destruct He as [<-|He]; try tauto; simpl; intros; lia.
  - intros n Hn. simpl in Hn. repeat destruct Hn as [<-|Hn]; try tauto; reflexivity.
Qed.
(** The assertion on the inseparable predecessor is not idle: with a negative lag on an
    inseparable edge it fails. *)
Theorem jit_negative_inseparable_lag_crashes :
  exists g, ~ inseparable_lags_ok g /\
    jit_build g sx_est jx_optimize sx_contractors (fun _ => WSpec [] [] None false) 0 [0; 1]%nat = Crash.
Proof.
  exists (Gr [Ed 0 1 0 FS; Ed 1 2 (-3) IFS] (g_unit sx_graph)). split; [|vm_compute; reflexivity].
  intros H. specialize (H (Ed 1 2 (-3) IFS)). simpl in H. specialize (H ltac:(auto) eq_refl). lia.
Qed.
Print Assumptions jit_negative_inseparable_lag_crashes.

(** Finding: the start answered by the release-time timeline ignores the predecessors,
    although its documentation says it is at least their finish. *)
Theorem jit_find_ignores_predecessors :
  exists g est sd s n team st ft,
    jit_find g est sd s n team false 0 = Some (st, ft) /\ st < min_start_time g sd n.
Proof.
  exists sx_graph, sx_est, [(3%nat, SW 0 9 [Wk 0 0 2] 0); (2%nat, SW 0 9 [] 0)], (jit_init (pool_of sx_contractors)),
    4%nat, [Wk 1 0 1]. eexists. eexists. vm_compute. split; reflexivity.
Qed.
Print Assumptions jit_find_ignores_predecessors.
