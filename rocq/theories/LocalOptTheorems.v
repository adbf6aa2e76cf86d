(** Properties C78 and C79: local optimization of the order of works and of schedules.
    [project_order] ([LocalOptProofs]): predecessors come first, only the first work has no
    predecessors, only the last one has no successors. *)
From Coq Require Import ZArith List Bool Arith Lia Permutation.
From Verif Require Import TimeModel MomentumModel MomentumSpec MomentumHistory JITModel JITHistory JITProofs GraphModel ScheduleModel ScheduleSpec
  TeamProofs ContractorTheorems ScheduleProofs SchedulePoolProofs GeneticProofs JitScheduleInv ScheduleTheorems JitScheduleTheorems LocalOptModel LocalOptProofs.
Import ListNotations.

(** C78. The optimizer of the order never raises inside the list and keeps every work; on
    the order of a project, any sequence of optimizers gives the same order back unless one
    of them is given the whole list. *)
Theorem local_order_kept :
  forall g order,
    (forall start stop, NoDup order -> stop <= length order ->
       exists o, swap_optimize g start stop order = Some o /\ Permutation order o) /\
    (forall areas, project_order g order ->
       Forall (fun area => snd area <= length order /\ area <> (0, length order)) areas ->
       optimize_order g areas order = Some order).
Proof.
  intros g order. split.
  - intros start stop H1 H2. apply swap_optimize_perm; assumption.
  - intros areas H1 H2. apply optimize_order_same; assumption.
Qed.
Print Assumptions local_order_kept.
Definition lo_graph : graph := Gr [Ed 0 1 0 FS; Ed 0 2 0 FS; Ed 1 3 0 FS; Ed 2 4 0 FS; Ed 3 5 0 FS; Ed 4 5 0 FS] (g_unit sx_graph).
Definition lo_order : list nat := [0; 1; 2; 3; 4; 5].
Lemma lo_project : project_order lo_graph lo_order.
Proof.
  split; [repeat constructor; simpl; intuition discriminate|]. split; [|split].
  - intros a b Ha Hb. simpl in Ha, Hb. intros H. apply before_nth.
    repeat destruct Hb as [<-|Hb]; try tauto; vm_compute in H; repeat destruct H as [<-|H]; try tauto;
      match goal with |- exists i j, _ /\ nth_error _ i = Some ?x /\ nth_error _ j = Some ?y => exists x, y end;
      (split; [lia|split; reflexivity]).
  - intros first rest n [= <- <-] H. simpl in H. repeat destruct H as [<-|H]; try tauto; vm_compute; discriminate.
  - intros last front n E H. unfold lo_order in E.
    assert (front = [0; 1; 2; 3; 4]) as ->.
    { apply (app_inj_tail [0; 1; 2; 3; 4] front 5 last) in E. symmetry. apply E. }
    simpl in H. repeat destruct H as [<-|H]; try tauto; vm_compute; discriminate.
Qed.
Example local_order_ex : project_order lo_graph lo_order /\
  optimize_order lo_graph [(0, 5); (1, 6); (2, 4)] lo_order = Some lo_order.
Proof. split; [exact lo_project|vm_compute; reflexivity]. Qed.

(** Finding: given the whole list, the optimizer exchanges the start and the finish of the
    project, and the scheduler then places the finish before the other works. *)
Definition lo_spec (n : nat) : work_spec := WSpec [] [] None false.
Theorem local_order_whole_broken :
  exists g order o, project_order g order /\ swap_optimize g 0 (length order) order = Some o /\
    comes_before order 3 5 /\ In 3 (parents g 5) /\ comes_before o 5 3 /\
    match jit_build g sx_est jx_optimize sx_contractors lo_spec 0 o with
    | Done (sd, _) => match sd_get sd 3, sd_get sd 5 with
                      | Some a, Some b => (sw_start b <? sw_finish a)%Z
                      | _, _ => false
                      end
    | _ => false
    end = true.
Proof.
  exists lo_graph, lo_order, [5; 4; 3; 2; 1; 0]. split; [exact lo_project|]. split; [vm_compute; reflexivity|].
  split; [apply before_nth; exists 3, 5; split; [lia|split; reflexivity]|]. split; [vm_compute; auto|].
  split; [apply before_nth; exists 0, 2; split; [lia|split; reflexivity]|vm_compute; reflexivity].
Qed.
Print Assumptions local_order_whole_broken.
(** Finding: of the dependencies only the successors of the later work and the predecessors
    of the earlier one are looked at. In a list with an isolated work 0 and 1 before 2, the
    exchange of 0 and 2 puts 2 before its predecessor 1. *)
Theorem local_order_predecessors_ignored :
  exists g order start stop o, NoDup order /\
    (forall a b, In a order -> In b order -> In a (parents g b) -> comes_before order a b) /\
    swap_optimize g start stop order = Some o /\ In 1 (parents g 2) /\ comes_before o 2 1.
Proof.
  exists (Gr [Ed 1 2 0 FS] (g_unit sx_graph)), [0; 1; 2], 0, 3, [2; 1; 0].
  split; [repeat constructor; simpl; intuition discriminate|]. split.
  - intros a b Ha Hb H. destruct b as [|[|[|b]]]; simpl in H; try tauto. destruct H as [<-|[]]. apply before_nth. exists 1, 2. split; [lia|split; reflexivity].
  - split; [vm_compute; reflexivity|]. split; [vm_compute; auto|]. apply before_nth. exists 0, 1. split; [lia|split; reflexivity].
Qed.
Print Assumptions local_order_predecessors_ignored.

Local Open Scope Z_scope.
(** The team consists of workers of the contractors, of each kind at most as many as there
    are. *)
Definition affordable (cs : list contractor) (team : list worker) : Prop :=
  NoDup (map (fun w => (w_contractor w, w_kind w)) team) /\
  forall w, In w team -> exists ct n, In ct cs /\ ct_id ct = w_contractor w /\ In (w_kind w, n) (ct_workers ct) /\ 0 <= w_count w <= n.
Lemma affordable_within cs team : contractors_ok cs -> affordable cs team ->
  exists t, team = to_workers t /\ team_within (pool_of cs) t.
Proof.
  intros Hcs [Hn Ha]. exists (map (fun w => ((w_contractor w, w_kind w), w_count w)) team). split.
  - unfold to_workers. rewrite map_map. symmetry. rewrite <- (map_id team) at 2. apply map_ext. intros [a b c]. reflexivity.
  - split; [rewrite map_map; exact Hn|]. intros a n H. apply in_map_iff in H as (w & [= <- <-] & H).
    destruct (Ha w H) as (ct & m & A1 & A2 & A3 & A4). exists m. split; [|exact A4]. rewrite <- A2. apply capacity_pool; assumption.
Qed.

(** C79. The schedule optimizer, applied to the order and the schedule of a project without
    inseparable works over the release-time timeline, always answers, and the answer is the
    schedule that was given. *)
Theorem parallelize_keeps_schedule :
  forall g est cs spec apt start stop order old,
    contractors_ok cs -> project_order g order -> (stop <= length order)%nat ->
    (forall e, In e (g_edges g) -> e_type e <> IFS) ->
    (forall n, In n order -> exists w, sd_get old n = Some w /\ In (sw_contractor w) (map ct_id cs) /\ affordable cs (sw_team w)) ->
    (forall first rest w, order = first :: rest -> sd_get old first = Some w -> sw_team w = []) ->
    exists sd, parallelize g jtimeline jit_init (jit_schedule g est) cs spec apt start stop old order = Some sd /\
      (forall n, In n order -> sd_get sd n = sd_get old n) /\ (forall n, ~ In n order -> sd_get sd n = None).
Proof.
  intros g est cs spec apt start stop order old Hcs Hp Hl Hi Hw Hf. unfold parallelize.
  rewrite (share_loop_ok g old order start stop Hp Hl) with (n := (stop - start)%nat).
  - destruct (jit_init_inv (pool_of cs)) as [Hj _].
    { intros a n H. unfold pool_of in H. apply in_concat in H as (l & H1 & H2). apply in_map_iff in H1 as (c & <- & H1).
      apply in_map_iff in H2 as ([k m] & [= <- <-] & H2). eapply (proj2 Hcs); eauto. }
    destruct (recalc_jit g est cs spec apt old (rev order) [] (jit_init (pool_of cs)) Hj) as (sd & E & E1 & E2).
    + intros n Hn. apply in_rev in Hn. destruct (Hw n Hn) as (w & W1 & W2 & W3).
      destruct (affordable_within cs (sw_team w) Hcs W3) as (t & T1 & T2).
      assert (Hno : forall l, (forall e, In e l -> In e (g_edges g)) -> filter (fun e => is_ifs (e_type e)) l = []).
      { induction l as [|e l IH]; intros Hl'; [reflexivity|]. simpl. specialize (Hi e (Hl' e (or_introl eq_refl))).
        destruct (e_type e); simpl; try (apply IH; intros; apply Hl'; right; assumption). congruence. }
      assert (Hs : inseparable_son g n = None) by (unfold inseparable_son; rewrite Hno; [reflexivity|intros e He; apply filter_In in He; tauto]).
      assert (Hpn : inseparable_parent g n = None) by (unfold inseparable_parent; rewrite Hno; [reflexivity|intros e He; apply filter_In in He; tauto]).
      split; [unfold chain_of; rewrite Hs; reflexivity|]. split; [exact Hpn|]. exists w, t. auto.
    + exists sd. split; [exact E|]. split; [intros n Hn; apply E1, in_rev; rewrite rev_involutive; exact Hn|].
      intros n Hn. rewrite E2; [reflexivity|]. intros H. apply Hn, in_rev, H.
  - intros n Hn E. destruct (Hw n Hn) as (w & W & _). congruence.
  - intros first w E1 E2. destruct order as [|x r]; [discriminate|]. simpl in E1. injection E1 as ->. eapply Hf; eauto.
  - apply le_n.
Qed.
Print Assumptions parallelize_keeps_schedule.
Definition lo_schedule : sched := match jit_build lo_graph sx_est jx_optimize sx_contractors lo_spec 0 lo_order with Done (sd, _) => sd | _ => [] end.
Example parallelize_ex :
  (forall e, In e (g_edges lo_graph) -> e_type e <> IFS) /\
  map (fun n => match sd_get lo_schedule n with Some w => (sw_start w, sw_finish w, map w_count (sw_team w)) | None => (0, 0, []) end) lo_order
    = [(0, 0, []); (0, 11, [1; 1]); (0, 12, [1; 1]); (11, 19, [2]); (12, 21, [2; 1]); (21, 21, [])] /\
  match parallelize lo_graph jtimeline jit_init (jit_schedule lo_graph sx_est) sx_contractors lo_spec 0 0 6 lo_schedule lo_order with
  | Some sd => forallb (fun n => match sd_get sd n, sd_get lo_schedule n with
                                 | Some a, Some b => (sw_start a =? sw_start b) && (sw_finish a =? sw_finish b)
                                 | _, _ => false end) lo_order
  | None => false
  end = true.
Proof.
  split; [intros e H; simpl in H; repeat destruct H as [<-|H]; try tauto; discriminate|split; vm_compute; reflexivity].
Qed.

(** Finding: with inseparable works, the first work of a chain keeps its old time and the
    others get new ones, so that a successor starts before the chain is done. *)
Theorem parallelize_breaks_chains :
  let old := match jit_build sx_graph sx_est jx_optimize sx_contractors sx_spec 0 sx_nodes with Done (sd, _) => sd | _ => [] end in
  In (Ed 2 4 0 FS) (g_edges sx_graph) /\
  exists sd a b a' b', parallelize sx_graph jtimeline jit_init (jit_schedule sx_graph sx_est) sx_contractors sx_spec 0 0 3 old sx_nodes = Some sd /\
    sd_get old 2 = Some a /\ sd_get old 4 = Some b /\ sw_finish a <= sw_start b /\
    sd_get sd 2 = Some a' /\ sd_get sd 4 = Some b' /\ sw_start b' < sw_finish a'.
Proof.
  cbv zeta. split; [simpl; tauto|]. do 5 eexists. split; [vm_compute; reflexivity|].
  split; [vm_compute; reflexivity|]. split; [vm_compute; reflexivity|]. split; [vm_compute; discriminate|].
  split; [vm_compute; reflexivity|]. split; [vm_compute; reflexivity|]. vm_compute. reflexivity.
Qed.
Print Assumptions parallelize_breaks_chains.
