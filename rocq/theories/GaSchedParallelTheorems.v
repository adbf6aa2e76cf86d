(** Properties C70, C71: the genetic scheduler with the parallel scheme, the default one,
    without deadline. Vocabulary: [GaSchedSpec], [PipelineTheorems], [genetic_inputs] of
    [GaSchedSerial], [parallel_inputs], [parallel_feasible] of [GaSchedParallel]. *)
From Coq Require Import ZArith List Bool Lia Arith Relations Permutation Sorted ZifyBool ZifyNat.
From Verif Require Import TimeModel MomentumModel JITModel MomentumSpec GraphModel ScheduleModel ScheduleSpec TeamProofs ScheduleInv ScheduleTheorems Digraph TopoModel TopoProofs TopoTheorems
  TraverseModel ValidationModel OrderModel OrderTheorems HeadModel HeadProofs HeadTheorems GeneticModel GeneticResModel GeneticResTheorems
  PriorityModel PipelineModel PipelineTheorems SgsModel SgsSpec SgsParallelTheorems GaModel GaProofs GaTheorems GaSchedModel GaSchedSpec GaSchedProofs GaSchedSerial GaSchedTheorems GaSchedParallel.
Import ListNotations.
Local Open Scope Z_scope.

(** converter.py:92-112 with the parallel scheme; [fuel] bounds the iterations of its loop. *)
Definition parallel (g : graph) (est : nat -> list worker -> Z) (cs : list contractor) (tb : toolbox) (apt : Z) (fuel : nat) (ch : chromosome) : option sched :=
  match parallel_decode g est (worker_names cs) cs (tb_nodes tb) ch apt fuel with Finished _ s => Some (ps_sched s) | _ => None end.
(** The number of iterations of the decoding loop that suffices. *)
Definition iterations (g : graph) (works : list nat) (apt D Lg : Z) (tb : toolbox) : nat :=
  parallel_iterations (length (tb_nodes tb)) (Z.to_nat (apt + (Z.of_nat (length works) + 1) * (D + 2 * Lg + 1))).

(** C70. Started from individuals, the genetic scheduler with the parallel scheme never
    raises and every decoding ends; every schedule it answers is feasible and comes from
    an individual, for every fitness function. *)
Theorem parallel_genetic_schedules_feasible :
  forall g works est cs spec prio apt D Lg optimize tb fuel listing shuffle draw timeout nsga2 multi size weights fitness worst max_plateau number init,
    genetic_inputs g works est cs spec apt optimize -> parallel_inputs g works est cs spec apt D Lg -> prepare g works cs spec prio = Some tb ->
    (iterations g works apt D Lg tb <= fuel)%nat ->
    (forall l, Permutation (listing l) l) -> (forall s k l, Permutation (shuffle s k l) l) -> (forall s k l, incl (nsga2 s k l) l) ->
    (forall s k, draws_ok (draw s k)) ->
    (forall rows, length (fitness rows) = length weights) -> length worst = length weights ->
    init <> [] -> Forall (individual_ok g cs spec prio (tb_nodes tb) (tb_cborders tb) optimize) init ->
    exists answers, genetic_schedules g cs tb (parallel g est cs tb apt fuel) listing shuffle draw timeout nsga2 multi size weights fitness worst
                      optimize max_plateau number init = Some answers /\ answers <> [] /\
      forall ch sd, In (ch, sd) answers ->
        individual_ok g cs spec prio (tb_nodes tb) (tb_cborders tb) optimize ch /\ parallel_feasible g cs spec works sd.
Proof.
  intros g works est cs spec prio apt D Lg opt tb fuel listing shuffle draw timeout nsga2 multi size weights fitness worst mp number init Hin Hpi Hp Hfu Hl Hs Hn Hd Hf Hw Hne Hi.
  assert (Htb := prepare_ok _ _ _ _ _ _ (gi_graph _ _ _ _ _ _ _ Hin) Hp).
  destruct (answers_ok g works est cs spec prio apt opt tb listing Hin Hp Hl (parallel g est cs tb apt fuel) (parallel_feasible g cs spec works)) with
    (shuffle := shuffle) (draw := draw) (timeout := timeout) (nsga2 := nsga2)
    (multi := multi) (size := size) (weights := weights) (fitness := fitness) (worst := worst) (mp := mp) (number := number) (init := init)
    as (st & answers & _ & E & A1 & _ & A2); try assumption; [apply pf_works| |eauto].
  intros ch V. destruct (parallel_ok g works est cs spec prio apt opt tb D Lg Hin Hpi Htb ch V) as (s & E & F). exists (ps_sched s).
  unfold parallel. rewrite (E fuel Hfu). auto.
Qed.
Print Assumptions parallel_genetic_schedules_feasible.

(** C71. Minimizing the execution time of works that are not independent, the genetic
    scheduler with the parallel scheme answers one schedule; it respects all dependencies
    with their lags and ends no later than the schedule that the scheme gives for any
    individual of the first population. *)
Theorem parallel_genetic_time_no_worse :
  forall g works est cs spec prio apt D Lg optimize tb fuel finish listing shuffle draw timeout nsga2 size worst max_plateau number init,
    genetic_inputs g works est cs spec apt optimize -> parallel_inputs g works est cs spec apt D Lg -> prepare g works cs spec prio = Some tb ->
    (iterations g works apt D Lg tb <= fuel)%nat ->
    (forall n, sp_independent (spec n) = false) -> (forall e, In e (g_edges g) -> 0 <= e_lag e) ->
    In finish works -> (forall n, In n works -> n = finish \/ path (depends_on g) n finish) ->
    (forall l, Permutation (listing l) l) -> (forall s k l, Permutation (shuffle s k l) l) -> (forall s k l, incl (nsga2 s k l) l) ->
    (forall s k, draws_ok (draw s k)) -> (0 < size)%nat ->
    init <> [] -> Forall (individual_ok g cs spec prio (tb_nodes tb) (tb_cborders tb) optimize) init ->
    exists ch sd t, genetic_schedules g cs tb (parallel g est cs tb apt fuel) listing shuffle draw timeout nsga2 false size [-1] time_fitness [worst]
                      optimize max_plateau number init = Some [(ch, sd)] /\
      parallel_feasible g cs spec works sd /\
      (forall e wu wv, In e (g_edges g) -> In (e_from e, wu) sd -> In (e_to e, wv) sd -> tadd (sw_finish wu) (e_lag e) <= sw_start wv) /\
      latest_finish sd t /\
      forall c, In c init -> exists sd0 t0, parallel g est cs tb apt fuel c = Some sd0 /\ latest_finish sd0 t0 /\ t <= t0.
Proof.
  intros g works est cs spec prio apt D Lg opt tb fuel finish listing shuffle draw timeout nsga2 size worst mp number init Hin Hpi Hp Hfu Hind Hlag Hfin Hend Hl Hs Hn Hd Hsize Hne Hi.
  assert (Hg := gi_graph _ _ _ _ _ _ _ Hin). assert (Htb := prepare_ok _ _ _ _ _ _ Hg Hp).
  assert (Hall : forall sd, parallel_feasible g cs spec works sd ->
    forall e wu wv, In e (g_edges g) -> In (e_from e, wu) sd -> In (e_to e, wv) sd -> tadd (sw_finish wu) (e_lag e) <= sw_start wv).
  { intros sd F e wu wv He Hu Hv. destruct (gk_closed _ _ Hg e He) as [_ Hvn].
    destruct (has_head g (graph_chains g works Hg) works (gk_closed _ _ Hg) _ Hvn) as (h & Hh1 & Hh2). apply (pf_lags _ _ _ _ _ F e h wu wv); auto. }
  destruct (time_no_worse g works est cs spec prio apt opt tb listing (parallel g est cs tb apt fuel) (parallel_feasible g cs spec works)
    shuffle draw timeout nsga2 size worst mp number init Hin Hp Hl) as (ch & sd & t & E & F & Ht & H); try assumption.
  - apply pf_works.
  - intros ch V. destruct (parallel_ok g works est cs spec prio apt opt tb D Lg Hin Hpi Htb ch V) as (s & E & F). exists (ps_sched s).
    unfold parallel. rewrite (E fuel Hfu). auto.
  - intros sd F. apply (schedule_time g works Hg finish Hfin Hend listing sd Hl (pf_works _ _ _ _ _ F) (pf_times _ _ _ _ _ F)).
    intros n m v w (e & He & _ & En & Em) Iv Iw. subst n m. assert (G := Hall sd F e v w He Iv Iw).
    destruct (pf_times _ _ _ _ _ F (e_from e) v Iv) as [Hle Hle']. specialize (Hlag e He).
    assert (sw_finish v <= tadd (sw_finish v) (e_lag e)); [|lia]. unfold tadd, set_time. destruct (TIME_INF <? sw_finish v + e_lag e) eqn:E1; [lia|].
    destruct (sw_finish v + e_lag e <? - TIME_INF) eqn:E2; [assert (0 <= TIME_INF) by (vm_compute; discriminate)|]; lia.
  - exists ch, sd, t. split; [exact E|]. split; [exact F|]. split; [apply Hall; exact F|]. auto.
Qed.
Print Assumptions parallel_genetic_time_no_worse.

(** ** The hypotheses are met: the works of [sx_graph], borders optimized *)
Lemma px_parallel_inputs : parallel_inputs sx_graph px_nodes sx_est sx_contractors sx_spec 0 15 2.
Proof.
  constructor.
  - intros n. unfold sx_spec. destruct (Nat.eqb n 4); reflexivity.
  - intros e He _. simpl in He. repeat destruct He as [<-|He]; try (simpl; lia); contradiction.
  - split; [lia|]. intros m ct [|w team] _ _ _; unfold sx_est; [lia|]. assert (H := Nat.le_min_r m 5). destruct (w_count w <? 2); lia.
  - split; [lia|]. intros e He. simpl in He. repeat destruct He as [<-|He]; try (simpl; lia); contradiction.
  - vm_compute. reflexivity.
Qed.
Lemma sx_dependent n : sp_independent (sx_spec n) = false.
Proof. unfold sx_spec. destruct (Nat.eqb n 4); reflexivity. Qed.
Lemma sx_lags e : In e (g_edges sx_graph) -> 0 <= e_lag e.
Proof. intros He. simpl in He. repeat destruct He as [<-|He]; try (simpl; lia); contradiction. Qed.
Definition parallel_gx_answer (fuel number : nat) :=
  match gx_toolbox, gx_individual with
  | Some tb, Some c =>
      genetic_schedules sx_graph sx_contractors tb (parallel sx_graph sx_est sx_contractors tb 0 fuel) (fun l => l) (fun _ _ l => l) gx_draws (fun _ _ => false)
        (fun _ _ l => l) false 2 [-1] time_fitness [TIME_INF] true None number [c; c]
  | _, _ => None
  end.
(** 10152 iterations suffice for one decoding; the answer of three generations. *)
Example parallel_gx_values :
  option_map (fun tb => N.leb (N.of_nat (iterations sx_graph px_nodes 0 15 2 tb)) 10152) gx_toolbox = Some true /\
  option_map (map (fun a => (ch_order (fst a), ch_rows (fst a), ch_borders (fst a), times (snd a)))) (parallel_gx_answer 100 3) =
    Some [([0; 1; 2; 3; 4]%nat, [([0; 0], 0%nat); ([2; 1], 1%nat); ([2; 0], 0%nat); ([2; 1], 1%nat); ([0; 0], 0%nat)], [[2; 0]; [2; 1]],
           [(0%nat, 0, 0); (1%nat, 0, 6); (2%nat, 6, 13); (3%nat, 13, 21); (4%nat, 22, 31); (5%nat, 31, 31)])].
Proof. vm_compute. split; reflexivity. Qed.
Example parallel_genetic_hypotheses :
  genetic_inputs sx_graph px_nodes sx_est sx_contractors sx_spec 0 true /\ parallel_inputs sx_graph px_nodes sx_est sx_contractors sx_spec 0 15 2 /\
  exists tb c ch sd t,
     prepare sx_graph px_nodes sx_contractors sx_spec (fun _ => 1) = Some tb /\
     individual_ok sx_graph sx_contractors sx_spec (fun _ => 1) (tb_nodes tb) (tb_cborders tb) true c /\
     parallel_gx_answer (iterations sx_graph px_nodes 0 15 2 tb) 3 = Some [(ch, sd)] /\ parallel_feasible sx_graph sx_contractors sx_spec px_nodes sd /\
     latest_finish sd t /\
     exists sd0 t0, parallel sx_graph sx_est sx_contractors tb 0 (iterations sx_graph px_nodes 0 15 2 tb) c = Some sd0 /\ latest_finish sd0 t0 /\ t <= t0.
Proof.
  split; [exact gx_inputs|]. split; [exact px_parallel_inputs|].
  destruct genetic_hypotheses as (_ & tb & c & sd0 & s0 & _ & _ & _ & _ & G1 & G2 & G3 & G4 & G5 & _).
  destruct (parallel_genetic_time_no_worse sx_graph px_nodes sx_est sx_contractors sx_spec (fun _ => 1) 0 15 2 true tb (iterations sx_graph px_nodes 0 15 2 tb) 5
    (fun l => l) (fun _ _ l => l) gx_draws (fun _ _ => false) (fun _ _ l => l) 2%nat TIME_INF None 3 [c; c] gx_inputs px_parallel_inputs G1 (Nat.le_refl _) sx_dependent sx_lags)
    as (ch & sd & t & E & F & _ & Ht & H).
  - simpl; tauto.
  - exact G3.
  - intros l. apply Permutation_refl.
  - intros s k l. apply Permutation_refl.
  - intros s k l x Hx. exact Hx.
  - exact G2.
  - lia.
  - discriminate.
  - constructor; [exact G5|constructor; [exact G5|constructor]].
  - exists tb, c, ch, sd, t. split; [exact G1|]. split; [exact G5|]. split.
    { unfold parallel_gx_answer, gx_individual, gx_toolbox. rewrite G1, G4. exact E. }
    split; [exact F|]. split; [exact Ht|]. apply H. left. reflexivity.
Qed.

(** ** Finding: the parallel scheme does not reproduce the schedule of the heuristic *)
(** No mutation happens. *)
Definition dull_draws (s k : nat) : draws :=
  Draws (fun j i lo hi => lo) (fun j i => false) (fun j c i => false) (fun j c i l => hd 0 l) (fun j i w => false) (fun j i l => l)
        (fun j i w l => hd O l) (fun j w => false) (fun j w l => hd O l) (fun j w i => false) (fun j w i l => hd 0 l).
Lemma dull_draws_ok s k : draws_ok (dull_draws s k).
Proof.
  unfold draws_ok, dull_draws. simpl. repeat split; try lia; try (intros ? ? ? [|x l] H; [congruence|left; reflexivity]);
    try (intros ? ? [|x l] H; [congruence|left; reflexivity]); auto.
Qed.
Lemma latest_finish_check sd t :
  forallb (fun x => sw_finish (snd x) <=? t) sd && existsb (fun x => sw_finish (snd x) =? t) sd = true -> latest_finish sd t.
Proof.
  intros H. apply andb_true_iff in H as [H1 H2]. split.
  - intros n w Hw. rewrite forallb_forall in H1. specialize (H1 _ Hw). cbn [snd] in H1. lia.
  - apply existsb_exists in H2 as ([n w] & Hw & E). exists n, w. split; [exact Hw|]. cbn [snd] in E. lia.
Qed.
(** The schedule of HEFTBetweenScheduler ends at 32. Work 3 starts at 2 there, two hours
    after its predecessor, as the lag demands. The parallel scheme tries only the times at
    which another work starts or ends, so the same individual ends at 41. Without lucky
    mutations the genetic scheduler answers that schedule after 50 generations: its answer
    is worse than the schedule its first population was made from. *)
Theorem parallel_genetic_worse_than_heft :
  exists tb c sd0 s0 sd,
    prepare sx_graph px_nodes sx_contractors sx_spec (fun _ => 1) = Some tb /\
    heft_between sx_graph px_nodes sx_est (fun _ => 1) sx_optimize sx_contractors sx_spec 0 = Scheduled sd0 s0 /\
    heft_between_individual sx_graph px_nodes sx_est (fun _ => 1) sx_optimize sx_contractors sx_spec tb = Some c /\
    (forall s k, draws_ok (dull_draws s k)) /\
    genetic_schedules sx_graph sx_contractors tb (parallel sx_graph sx_est sx_contractors tb 0 10152) (fun l => l) (fun _ _ l => l) dull_draws (fun _ _ => false)
        (fun _ _ l => l) false 2 [-1] time_fitness [TIME_INF] true None 50 [c; c] = Some [(c, sd)] /\
    latest_finish sd0 32 /\ latest_finish sd 41.
Proof.
  destruct (prepare sx_graph px_nodes sx_contractors sx_spec (fun _ => 1)) as [tb|] eqn:Ep; [|exfalso; vm_compute in Ep; discriminate].
  destruct (heft_between sx_graph px_nodes sx_est (fun _ => 1) sx_optimize sx_contractors sx_spec 0) as [sd0 s0| | |] eqn:Eh; try (exfalso; vm_compute in Eh; discriminate).
  vm_compute in Ep. injection Ep as <-.
  eexists _, _, sd0, s0, _. split; [reflexivity|]. split; [reflexivity|]. split; [vm_compute; reflexivity|]. split; [exact dull_draws_ok|].
  split; [vm_compute; reflexivity|]. split.
  - apply latest_finish_check. vm_compute in Eh. injection Eh as <- _. vm_compute. reflexivity.
  - apply latest_finish_check. vm_compute. reflexivity.
Qed.
Print Assumptions parallel_genetic_worse_than_heft.
