(** C102: the lag strategies of the default pipeline. *)
From Coq Require Import ZArith QArith Qround List Bool Lia Lqa Permutation Relations.
From Verif Require Import TimeModel MomentumModel JITModel GraphModel ScheduleModel TopoModel TraverseModel ValidationModel OrderModel
  PipelineModel ResourceModel EnvModel RestructModel LagPipelineModel
  Digraph TopoProofs ScheduleSpec ScheduleProofs TopoTheorems TraverseProofs HeadProofs HeadTheorems RestructSplit RestructProofs RestructTheorems
  EstimatorModel EstimatorTheorems ResourceTheorems PipelineTheorems OrderTheorems EnvTheorems LagPipelineProofs.
Import ListNotations.
Local Open Scope Z_scope.

Lemma restructured_run_correct {T} (run : graph -> list nat -> (nat -> Z) -> list contractor -> (nat -> work_spec) -> scheduled T) table apt D Lg p cs spec listing depth prio use_lag :
  project_ok p table apt D Lg -> scheduler_correct run table apt -> contractors_ok cs -> specified_ok p cs spec -> (forall l, Permutation (listing l) l) ->
  (length (pj_nodes p) + 2 * length (pj_edges p) <= depth)%nat -> (forall w, prio w = pj_prio p w) ->
  let r := restructured_run run spec listing depth p prio cs use_lag in
  (exists sd w s t, r = Scheduled sd (w, s, t) /\ carries_out p use_lag cs spec w sd t /\ answered run p cs spec w sd s) \/
  (r = CircularGraph /\ groups_cyclic p) \/
  (r = NotEnoughWorkers /\ exists w, In w (pj_nodes p) /\ nobody_able (plain_graph p) cs spec w).
Proof.
  intros Hp Hr Hcs Hs Hl Hd Hpr.
  destruct (restructure_correct (pj_rgraph p) use_lag (project_restructurable p table apt D Lg use_lag Hp)) as (stages & edges & R & Ids & Am & Tot & Nd & Ty & Src & Lnk & Rep).
  exact (run_correct p table apt D Lg use_lag Hp stages edges R Ids Am Tot Nd Ty Src Lnk Rep run cs spec listing depth prio Hr Hcs Hs Hl Hd Hpr).
Qed.
Lemma plain_acyclic p table apt D Lg : project_ok p table apt D Lg -> acyclic (depends_on (plain_graph p)) /\
  forall x y, depends_on (plain_graph p) x y -> In x (pj_nodes p) /\ In y (pj_nodes p) /\ pj_prio p x <= pj_prio p y.
Proof.
  intros Hp. assert (C : forall x y, depends_on (plain_graph p) x y -> exists e, In e (pj_edges p) /\ re_from e = x /\ re_to e = y).
  { intros x y (e & He & _ & <- & <-). cbn [plain_graph g_edges] in He. apply in_map_iff in He as (e' & <- & He). exists e'. auto. }
  split.
  - apply (topological_acyclic _ (pj_nodes p) (pk_nodup _ _ _ _ _ Hp)).
    + intros x y H _ _. apply C in H as (e & He & <- & <-). apply (pk_order _ _ _ _ _ Hp e He).
    + intros x y H. apply C in H as (e & He & <- & <-). apply comes_before_in, (pk_order _ _ _ _ _ Hp e He).
  - intros x y H. apply C in H as (e & He & <- & <-). destruct (comes_before_in _ _ _ (pk_order _ _ _ _ _ Hp e He)) as [A B]. split; [exact A|]. split; [exact B|].
    apply (pk_prio _ _ _ _ _ Hp e He).
Qed.

(** With strategy AUTO the pipeline answers with the shorter of two schedules, one for the
    graph restructured without lags and one for the graph restructured with lags. Both can be
    carried out and honour every edge of the project, of whatever type: for an edge with lag,
    in the second one, the stated part of the work is done or left. If there is no answer, the
    groups of inseparable works depend on each other cyclically or some work of the project has
    no allowed contractor with enough workers. *)
Theorem auto_pipeline {T} (run : graph -> list nat -> (nat -> Z) -> list contractor -> (nat -> work_spec) -> scheduled T) table apt D Lg p cs spec listing depth :
  project_ok p table apt D Lg -> scheduler_correct run table apt -> contractors_ok cs -> specified_ok p cs spec -> (forall l, Permutation (listing l) l) ->
  (length (pj_nodes p) + 2 * length (pj_edges p) <= depth)%nat ->
  (forall ct w r, In ct cs -> In w (pj_nodes p) -> In r (u_reqs (pj_unit p w)) -> In (r_kind r) (map fst (ct_workers ct))) ->
  let r := lag_pipeline run spec listing depth LagAuto p (Given cs) in
  (exists sd0 w0 s0 t0 sd1 w1 s1 t1,
     (carries_out p false cs spec w0 sd0 t0 /\ answered run p cs spec w0 sd0 s0) /\
     (carries_out p true cs spec w1 sd1 t1 /\ answered run p cs spec w1 sd1 s1) /\
     ((t0 < t1 /\ r = Scheduled sd0 (w0, s0)) \/ (t1 <= t0 /\ r = Scheduled sd1 (w1, s1)))) \/
  (r = CircularGraph /\ groups_cyclic p) \/
  (r = NotEnoughWorkers /\ exists w, In w (pj_nodes p) /\ nobody_able (plain_graph p) cs spec w).
Proof.
  intros Hp Hr Hcs Hs Hl Hd Hk. cbv zeta. unfold lag_pipeline, pipeline_schedule.
  destruct (plain_acyclic p table apt D Lg Hp) as [Ac Cl].
  destruct (corrected_unchanged depth (plain_graph p) (pj_nodes p) (pj_prio p) Ac) as (prio' & -> & Up).
  { intros x y H. split; apply Cl with (1 := H). }
  { lia. }
  { intros x y H. apply Cl, H. }
  cbn [pipeline_contractors].
  destruct (contractor_check_answers cs (plain_graph p) (pj_nodes p) Hk) as [b Eb]. rewrite Eb. destruct b.
  - assert (R0 := restructured_run_correct run table apt D Lg p cs spec listing depth prio' false Hp Hr Hcs Hs Hl Hd Up).
    assert (R1 := restructured_run_correct run table apt D Lg p cs spec listing depth prio' true Hp Hr Hcs Hs Hl Hd Up).
    cbv zeta in R0, R1. unfold auto_run.
    destruct R0 as [(sd0 & w0 & s0 & t0 & -> & A0)|[(-> & A0)|(-> & A0)]]; [|right; left; auto|right; right; auto].
    destruct R1 as [(sd1 & w1 & s1 & t1 & -> & A1)|[(-> & A1)|(-> & A1)]]; [|right; left; auto|right; right; auto].
    left. exists sd0, w0, s0, t0, sd1, w1, s1, t1. split; [exact A0|]. split; [exact A1|].
    destruct (Z.ltb_spec t0 t1); [left|right]; auto.
  - right. right. split; [reflexivity|]. apply nodes_loop_false in Eb as (reqs & Hq & Hno); [|intros ct Hct; apply (proj2 Hcs ct Hct)].
    apply in_map_iff in Hq as (n & <- & Hn). exists n. split; [exact Hn|]. intros ct Hct _. apply Hno, Hct.
Qed.
Print Assumptions auto_pipeline.

(** Without inseparable edges the groups are single works, which cannot depend on each other
    cyclically. *)
Theorem single_works_not_cyclic p table apt D Lg : project_ok p table apt D Lg -> (forall e, In e (pj_edges p) -> re_type e <> IFS) -> ~ groups_cyclic p.
Proof.
  intros Hp No (w & Hw).
  assert (J : forall x y, path0 (joined_works p) x y -> x = y).
  { intros x y H. induction H as [x y (e & He & Te & _)|x|x y z _ IH1 _ IH2]; [destruct (No e He Te)|reflexivity|congruence]. }
  assert (A : acyclic (group_before p)); [|exact (A w Hw)].
  assert (S : forall x y, group_before p x y -> comes_before (pj_nodes p) x y).
  { intros x y (_ & _ & _ & e & He & P1 & P2). apply J in P1, P2. subst. apply (pk_order _ _ _ _ _ Hp e He). }
  apply (topological_acyclic _ (pj_nodes p) (pk_nodup _ _ _ _ _ Hp)); [intros x y H _ _; apply S, H|intros x y H; apply comes_before_in, S, H].
Qed.
Print Assumptions single_works_not_cyclic.

(** HEFT with the default estimator is such a scheduler. *)
Definition heft_scheduler (table : productivities) (apt : Z) (g : graph) (nodes : list nat) (prio : nat -> Z) (cs : list contractor) (spec : nat -> work_spec) :=
  heft_end_default g nodes (default_estimator table g) prio cs spec apt.
Lemma heft_scheduler_correct table apt : scheduler_correct (heft_scheduler table apt) table apt.
Proof. intros g nodes prio cs spec H. exact (heft_with_default_estimator g nodes table prio cs spec apt H). Qed.
Theorem auto_pipeline_heft table apt D Lg p cs spec listing depth :
  project_ok p table apt D Lg -> contractors_ok cs -> specified_ok p cs spec -> (forall l, Permutation (listing l) l) ->
  (length (pj_nodes p) + 2 * length (pj_edges p) <= depth)%nat ->
  (forall ct w r, In ct cs -> In w (pj_nodes p) -> In r (u_reqs (pj_unit p w)) -> In (r_kind r) (map fst (ct_workers ct))) ->
  let r := lag_pipeline (heft_scheduler table apt) spec listing depth LagAuto p (Given cs) in
  (exists sd0 w0 s0 t0 sd1 w1 s1 t1,
     (carries_out p false cs spec w0 sd0 t0 /\ answered (heft_scheduler table apt) p cs spec w0 sd0 s0) /\
     (carries_out p true cs spec w1 sd1 t1 /\ answered (heft_scheduler table apt) p cs spec w1 sd1 s1) /\
     ((t0 < t1 /\ r = Scheduled sd0 (w0, s0)) \/ (t1 <= t0 /\ r = Scheduled sd1 (w1, s1)))) \/
  (r = CircularGraph /\ groups_cyclic p) \/
  (r = NotEnoughWorkers /\ exists w, In w (pj_nodes p) /\ nobody_able (plain_graph p) cs spec w).
Proof. intros Hp Hcs Hs Hl Hd Hk. exact (auto_pipeline _ table apt D Lg p cs spec listing depth Hp (heft_scheduler_correct table apt) Hcs Hs Hl Hd Hk). Qed.
Print Assumptions auto_pipeline_heft.

(** ** Example: all types of edges *)
Definition lx_unit (n : nat) : work_unit := if Nat.eqb n 0 || Nat.eqb n 5 then WU true [] 0 else WU false [Req 0 12 1 3] 12.
Definition lx_project : project :=
  Pj 0 5 [0; 1; 2; 3; 4; 5]%nat
     [RE 0 1 0 FS; RE 0 2 0 FS; RE 1 2 5 SS; RE 2 3 3 FF; RE 1 3 4 FFS; RE 3 4 0 IFS; RE 4 5 2 FS; RE 2 5 0 FS]%Q
     (fun _ => 10%Q) lx_unit (fun _ => []) (fun _ => 0).
Definition lx_contractors : list contractor := [Ct 0 [(0%nat, 4)]; Ct 1 [(0%nat, 4)]].
Definition lx_spec (n : nat) : work_spec := WSpec [] [] None false.
Ltac edges_of H := cbn [lx_project pj_edges] in H; repeat destruct H as [<-|H]; [..|destruct H].
Lemma lx_ok : project_ok lx_project ex_table 0 12 5.
Proof.
  constructor.
  - cbn. repeat constructor; cbn; intuition discriminate.
  - intros e He. cbn [lx_project pj_nodes].
    assert (B : forall l1 l2 l3 u v, [0; 1; 2; 3; 4; 5]%nat = l1 ++ u :: l2 ++ v :: l3 -> comes_before [0; 1; 2; 3; 4; 5]%nat u v) by (intros l1 l2 l3 u v E; exists l1, l2, l3; exact E).
    edges_of He; cbn [re_from re_to].
    + apply (B [] [] [2; 3; 4; 5]%nat); reflexivity.
    + apply (B [] [1]%nat [3; 4; 5]%nat); reflexivity.
    + apply (B [0]%nat [] [3; 4; 5]%nat); reflexivity.
    + apply (B [0; 1]%nat [] [4; 5]%nat); reflexivity.
    + apply (B [0]%nat [2]%nat [4; 5]%nat); reflexivity.
    + apply (B [0; 1; 2]%nat [] [5]%nat); reflexivity.
    + apply (B [0; 1; 2; 3]%nat [] []); reflexivity.
    + apply (B [0; 1]%nat [3; 4]%nat []); reflexivity.
  - intros k [-> | ->]; cbn; repeat constructor; cbn; intuition discriminate.
  - cbn. tauto.
  - cbn. tauto.
  - intros w Hw Nw. cbn in Hw, Nw. repeat destruct Hw as [<-|Hw]; try tauto.
    + exists (RE 0 1 0 FS). cbn. tauto.
    + exists (RE 0 2 0 FS). cbn. tauto.
    + exists (RE 1 3 4 FFS). cbn. tauto.
    + exists (RE 3 4 0 IFS). cbn. tauto.
    + exists (RE 2 5 0 FS). cbn. tauto.
  - intros w Hw Nw. cbn in Hw, Nw. repeat destruct Hw as [<-|Hw]; try tauto.
    + exists (RE 0 1 0 FS). cbn. tauto.
    + exists (RE 1 3 4 FFS). cbn. tauto.
    + exists (RE 2 5 0 FS). cbn. tauto.
    + exists (RE 3 4 0 IFS). cbn. tauto.
    + exists (RE 4 5 2 FS). cbn. tauto.
  - intros e He. edges_of He; cbn; intuition (try discriminate).
  - intros e e' He He' T T'. edges_of He; cbn in T; try discriminate. edges_of He'; cbn in T'; try discriminate. auto.
  - intros e He. cbn. split; [lia|reflexivity].
  - intros w. cbn [lx_project pj_unit]. unfold lx_unit. destruct (Nat.eqb w 0 || Nat.eqb w 5); cbn; split; repeat constructor; cbn; try lia; intuition.
  - intros w. cbn [lx_project pj_unit pj_counts]. unfold lx_unit. destruct (Nat.eqb w 0 || Nat.eqb w 5); cbn; (split; [intros r Hr; repeat destruct Hr as [<-|Hr]; cbn; try lia; tauto|split; [intros l c []|lia]]).
  - intros e He T. edges_of He; cbn in T; try discriminate. cbn. repeat constructor; cbn; lia.
  - intros w. cbn [lx_project pj_unit]. unfold lx_unit. destruct (Nat.eqb w 0 || Nat.eqb w 5); cbn; [reflexivity|discriminate].
  - lia.
  - intros w r c Hr. cbn [lx_project pj_unit] in Hr. unfold lx_unit in Hr. destruct (Nat.eqb w 0 || Nat.eqb w 5); cbn in Hr; [tauto|]. destruct Hr as [<-|[]].
    exists (fun _ => 1%Q). split; [reflexivity|]. split; [reflexivity|cbn; discriminate].
  - intros e He T. edges_of He; cbn; discriminate.
  - split; [lia|]. split; [lia|]. split; [|change TIME_INF with 2000000000; cbn; lia]. intros e He. edges_of He; cbn; lia.
Qed.
(** A contractor is specified for work 1. *)
Definition ly_spec (n : nat) : work_spec := if Nat.eqb n 1 then WSpec [1%nat] [] None false else WSpec [] [] None false.
Lemma lx_hypotheses : contractors_ok lx_contractors /\ specified_ok lx_project lx_contractors lx_spec /\ specified_ok lx_project lx_contractors ly_spec /\
  (length (pj_nodes lx_project) + 2 * length (pj_edges lx_project) <= 30)%nat /\
  (forall ct w r, In ct lx_contractors -> In w (pj_nodes lx_project) -> In r (u_reqs (pj_unit lx_project w)) -> In (r_kind r) (map fst (ct_workers ct))).
Proof.
  assert (S : forall spec, (forall n, sp_workers (spec n) = [] /\ sp_time (spec n) = None) -> specified_ok lx_project lx_contractors spec).
  { intros spec H. constructor.
    - intros w. destruct (H w) as [H1 H2]. unfold spec_ok, spec_fits. rewrite H1, H2. split; [split; [intros k n []|exact I]|]. split; [reflexivity|].
      split; [intros ct k m n _ _ []|]. intros E r Hr. destruct (u_reqs _); [destruct Hr|discriminate].
    - intros n. left. apply H.
    - intros n r x _ Hx. rewrite (proj1 (H n)) in Hx. destruct Hx.
    - intros w _. apply H. }
  split; [|split; [apply S; intros n; split; reflexivity|split; [apply S; intros n; unfold ly_spec; destruct (Nat.eqb n 1); split; reflexivity|split; [cbn; lia|]]]].
  - split; [repeat constructor; cbn; intuition discriminate|]. intros c [<-|[<-|[]]]; cbn; (split; [repeat constructor; intros []|]); intros k n [[= <- <-]|[]]; lia.
  - intros ct w r Hct _ Hr. cbn [lx_project pj_unit] in Hr. unfold lx_unit in Hr. destruct (Nat.eqb w 0 || Nat.eqb w 5); cbn in Hr; [tauto|]. destruct Hr as [<-|[]].
    destruct Hct as [<-|[<-|[]]]; cbn; auto.
Qed.
(** The stages of work 1, those of work 3 and the other works, with their times *)
Example auto_ex :
  match lag_pipeline (heft_scheduler ex_table 0) lx_spec (fun l => l) 30 LagAuto lx_project (Given lx_contractors) with
  | Scheduled sd _ => map (fun x => (decode (fst x), sw_start (snd x), sw_finish (snd x))) sd
  | _ => []
  end = [((5%nat, None), 14, 14); ((4%nat, None), 8, 12); ((3%nat, None), 8, 8); ((3%nat, Some 0%nat), 4, 8); ((2%nat, None), 0, 4);
         ((1%nat, None), 0, 4); ((1%nat, Some 0%nat), 0, 0); ((0%nat, None), 0, 0)].
Proof. vm_compute. reflexivity. Qed.

(** Finding: the strategies TRUE and FALSE are the same, and the graph is not restructured at
    all, so that Finish-Finish edges (and Start-Start edges) are not honoured: in the example
    work 3 ends before work 2 does. *)
Theorem lag_strategies_ignored :
  (forall T (run : graph -> list nat -> (nat -> Z) -> list contractor -> (nat -> work_spec) -> scheduled T) spec listing depth p input,
     lag_pipeline run spec listing depth LagTrue p input = lag_pipeline run spec listing depth LagFalse p input) /\
  (project_ok lx_project ex_table 0 12 5 /\ In (RE 2 3 3 FF) (pj_edges lx_project) /\
   exists sd s x2 x3, lag_pipeline (heft_scheduler ex_table 0) lx_spec (fun l => l) 30 LagTrue lx_project (Given lx_contractors) = Scheduled sd s /\
     In (2%nat, x2) sd /\ In (3%nat, x3) sd /\ sw_finish x3 < sw_finish x2).
Proof.
  split; [reflexivity|]. split; [exact lx_ok|]. split; [cbn; tauto|].
  destruct (lag_pipeline (heft_scheduler ex_table 0) lx_spec (fun l => l) 30 LagTrue lx_project (Given lx_contractors)) as [sd s| | |] eqn:E.
  - assert (S : match lag_pipeline (heft_scheduler ex_table 0) lx_spec (fun l => l) 30 LagTrue lx_project (Given lx_contractors) with Scheduled sd _ => sd | _ => [] end =
      [(5%nat, SW 18 18 [] 0); (2%nat, SW 9 13 [Wk 1 0 2] 1); (4%nat, SW 12 16 [Wk 0 0 2] 0); (3%nat, SW 8 12 [Wk 0 0 2] 0); (1%nat, SW 0 4 [Wk 0 0 2] 0); (0%nat, SW 0 0 [] 0)]) by (vm_compute; reflexivity).
    rewrite E in S. exists sd, s, (SW 9 13 [Wk 1 0 2] 1), (SW 8 12 [Wk 0 0 2] 0). rewrite S. cbn. split; [reflexivity|]. split; [tauto|]. split; [tauto|lia].
  - exfalso. assert (X : match lag_pipeline (heft_scheduler ex_table 0) lx_spec (fun l => l) 30 LagTrue lx_project (Given lx_contractors) with Scheduled _ _ => true | _ => false end = true) by (vm_compute; reflexivity). rewrite E in X. discriminate.
  - exfalso. assert (X : match lag_pipeline (heft_scheduler ex_table 0) lx_spec (fun l => l) 30 LagTrue lx_project (Given lx_contractors) with Scheduled _ _ => true | _ => false end = true) by (vm_compute; reflexivity). rewrite E in X. discriminate.
  - exfalso. assert (X : match lag_pipeline (heft_scheduler ex_table 0) lx_spec (fun l => l) 30 LagTrue lx_project (Given lx_contractors) with Scheduled _ _ => true | _ => false end = true) by (vm_compute; reflexivity). rewrite E in X. discriminate.
Qed.
Print Assumptions lag_strategies_ignored.
(** Finding: a specification does not reach the stages of a work that is split, except the
    last one, which takes the team of the first: in the example contractor 1 is specified for
    work 1, but contractor 0 does all of it. *)
Theorem specification_lost_by_restructuring :
  specified_ok lx_project lx_contractors ly_spec /\ sp_contractors (ly_spec 1) = [1%nat] /\
  exists sd s, lag_pipeline (heft_scheduler ex_table 0) ly_spec (fun l => l) 30 LagAuto lx_project (Given lx_contractors) = Scheduled sd s /\
    exists x y, In (code (1%nat, Some 0%nat), x) sd /\ In (code (1%nat, None), y) sd /\ sw_contractor x = 0%nat /\ sw_contractor y = 0%nat /\ sw_team y <> [] /\
      forall n z, In (n, z) sd -> fst (decode n) = 1%nat -> sw_contractor z = 0%nat.
Proof.
  split; [apply lx_hypotheses|]. split; [reflexivity|].
  assert (X : match lag_pipeline (heft_scheduler ex_table 0) ly_spec (fun l => l) 30 LagAuto lx_project (Given lx_contractors) with Scheduled sd _ => Some (rev sd) | _ => None end =
    Some (map (fun x => (code (fst x), snd x)) [((0%nat, None), SW 0 0 [] 0); ((1%nat, Some 0%nat), SW 0 0 [Wk 0 0 2] 0); ((1%nat, None), SW 0 4 [Wk 0 0 2] 0); ((2%nat, None), SW 0 4 [Wk 0 0 2] 0);
      ((3%nat, Some 0%nat), SW 4 8 [Wk 1 0 2] 1); ((3%nat, None), SW 8 8 [Wk 1 0 2] 1); ((4%nat, None), SW 8 12 [Wk 1 0 2] 1); ((5%nat, None), SW 14 14 [] 0)])) by (vm_compute; reflexivity).
  destruct (lag_pipeline (heft_scheduler ex_table 0) ly_spec (fun l => l) 30 LagAuto lx_project (Given lx_contractors)) as [sd s| | |]; [|discriminate|discriminate|discriminate].
  assert (Y : sd = rev (map (fun x => (code (fst x), snd x)) [((0%nat, None), SW 0 0 [] 0); ((1%nat, Some 0%nat), SW 0 0 [Wk 0 0 2] 0); ((1%nat, None), SW 0 4 [Wk 0 0 2] 0); ((2%nat, None), SW 0 4 [Wk 0 0 2] 0);
      ((3%nat, Some 0%nat), SW 4 8 [Wk 1 0 2] 1); ((3%nat, None), SW 8 8 [Wk 1 0 2] 1); ((4%nat, None), SW 8 12 [Wk 1 0 2] 1); ((5%nat, None), SW 14 14 [] 0)])).
  { rewrite <- (rev_involutive sd). f_equal. congruence. }
  clear X. exists sd, s. split; [reflexivity|]. exists (SW 0 0 [Wk 0 0 2] 0), (SW 0 4 [Wk 0 0 2] 0).
  assert (I : forall i x, In (i, x) [((0%nat, None), SW 0 0 [] 0); ((1%nat, Some 0%nat), SW 0 0 [Wk 0 0 2] 0); ((1%nat, None), SW 0 4 [Wk 0 0 2] 0); ((2%nat, None), SW 0 4 [Wk 0 0 2] 0);
      ((3%nat, Some 0%nat), SW 4 8 [Wk 1 0 2] 1); ((3%nat, None), SW 8 8 [Wk 1 0 2] 1); ((4%nat, None), SW 8 12 [Wk 1 0 2] 1); ((5%nat, None), SW 14 14 [] 0)] -> In (code i, x) sd).
  { intros i x H. rewrite Y, <- in_rev. apply (in_map (fun x => (code (fst x), snd x))) in H. exact H. }
  split; [apply I; cbn; tauto|]. split; [apply I; cbn; tauto|]. split; [reflexivity|]. split; [reflexivity|]. split; [discriminate|].
  intros n z Hn En. rewrite Y, <- in_rev in Hn. apply in_map_iff in Hn as ([i x] & [= <- <-] & Hi). rewrite decode_code in En.
  cbn in Hi. repeat destruct Hi as [[= <- <-]|Hi]; try reflexivity; try discriminate; destruct Hi.
Qed.
Print Assumptions specification_lost_by_restructuring.
