(** Theorems C14, C15, C19, C41: contractor search, worker borders, assigned times and
    spec-driven teams. *)
From Coq Require Import ZArith List Bool Lia Arith.
From Verif Require Import TimeModel MomentumModel MomentumSpec GraphModel ScheduleModel ContractorProofs TeamProofs.
Import ListNotations.
Local Open Scope Z_scope.

(** C14: the answer is an allowed contractor with a finite, minimal finish; ties go to
    the smaller workforce. *)
Theorem contractor_search_optimal :
  forall (team : Type) (runner : contractor -> outcome (Z * Z * team)) cs s st ft c tm,
    (forall c st ft tm, runner c = Done (st, ft, tm) -> - TIME_INF <= ft <= TIME_INF) ->
    run_contractor_search runner cs s = Done (st, ft, c, tm) ->
    In c cs /\ (sp_contractors s = [] \/ In (ct_id c) (sp_contractors s)) /\
    runner c = Done (st, ft, tm) /\ is_inf ft = false /\
    (forall c', In c' cs -> (sp_contractors s = [] \/ In (ct_id c') (sp_contractors s)) ->
       exists st' ft' tm', runner c' = Done (st', ft', tm') /\
         (is_inf ft' = true \/ ft < ft' \/
          (ft = ft' /\ fold_right Z.add 0 (map snd (ct_workers c)) <= fold_right Z.add 0 (map snd (ct_workers c'))))).
Proof.
  intros team runner cs s st ft c tm Hr H.
  assert (Hen : forall x, contractor_enabled s x = true <-> (sp_contractors s = [] \/ In x (sp_contractors s))).
  { intros x. unfold contractor_enabled. destruct (sp_contractors s) as [|y l].
    - split; auto.
    - rewrite existsb_exists. split.
      + intros (z & Hz & E). apply Nat.eqb_eq in E. subst. right; exact Hz.
      + intros [Hd|Hin]; [discriminate|]. exists x. split; [exact Hin|apply Nat.eqb_refl]. }
  destruct (contractor_search_best team runner Hr cs s st ft c tm H) as (A & B & C & D).
  apply filter_In in A as [A1 A2]. apply Hen in A2.
  split; [exact A1|]. split; [exact A2|]. split; [exact B|]. split; [exact C|].
  intros c' Hc' Hs'. destruct (D c') as (ft' & (st' & tm' & E1) & E2).
  { apply filter_In. split; [exact Hc'|]. apply Hen. exact Hs'. }
  exists st', ft', tm'. split; [exact E1|]. exact E2.
Qed.
Print Assumptions contractor_search_optimal.

(** C14: the no-sufficient-contractor error is raised exactly when no allowed contractor
    has a finite finish. *)
Theorem contractor_search_error_exact :
  forall (team : Type) (runner : contractor -> outcome (Z * Z * team)) cs s,
    (forall c st ft tm, runner c = Done (st, ft, tm) -> - TIME_INF <= ft <= TIME_INF) ->
    (forall c, exists r, runner c = Done r) ->
    (run_contractor_search runner cs s = NoContractor <->
     forall c st ft tm, In c (filter_contractors s cs) -> runner c = Done (st, ft, tm) -> is_inf ft = true).
Proof.
  intros team runner cs s Hr Hd.
  assert (Hno : forall c, runner c <> NoContractor) by (intros c E; destruct (Hd c) as [r Hr']; congruence).
  split.
  - intros H c st ft tm Hc Hrc.
    destruct (contractor_search_none team runner Hr cs s Hno H c Hc) as (st' & ft' & tm' & E & F). congruence.
  - intros H. destruct (run_contractor_search runner cs s) as [[[[st ft] c] tm]| |] eqn:E; [|reflexivity|].
    + destruct (contractor_search_best team runner Hr cs s st ft c tm E) as (A & B & C & _).
      rewrite (H c st ft tm A B) in C. discriminate.
    + exfalso. eapply (contractor_search_not_crash team runner Hr cs s); eauto.
Qed.
Print Assumptions contractor_search_error_exact.

Definition cex_contractors : list contractor :=
  [Ct 0 [(0%nat, 9)]; Ct 1 [(0%nat, 3); (1%nat, 1)]; Ct 2 [(0%nat, 2)]; Ct 3 [(0%nat, 1)]].
Definition cex_runner (c : contractor) : outcome (Z * Z * list worker) :=
  Done (0, nth (ct_id c) [20; 10; 10; TIME_INF] 0, []).
Example contractor_search_ex :
  run_contractor_search cex_runner cex_contractors (WSpec [] [] None false) = Done (0, 10, Ct 2 [(0%nat, 2)], []) /\
  run_contractor_search cex_runner cex_contractors (WSpec [0; 3]%nat [] None false) = Done (0, 20, Ct 0 [(0%nat, 9)], []) /\
  run_contractor_search cex_runner cex_contractors (WSpec [3]%nat [] None false) = NoContractor.
Proof. vm_compute. repeat split; reflexivity. Qed.

(** C15 *)
Theorem worker_borders_exact :
  forall p c reqs,
    (get_worker_borders p c reqs = None <->
     exists r, In r reqs /\ match capacity p (c, r_kind r) with None => True | Some n => n < r_min r end) /\
    (forall bs, get_worker_borders p c reqs = Some bs ->
       Forall2 (fun r b => exists n, capacity p (c, r_kind r) = Some n /\ r_min r <= n /\
                  b = Bd (r_kind r) (r_min r) (Z.min (r_max r) n) n) reqs bs).
Proof.
  intros p c reqs. split; [apply borders_none|]. intros bs H. apply borders_spec in H.
  induction H as [|r b reqs bs (H1 & H2 & H3 & H4 & H5) _ IH]; constructor; auto.
  exists (bd_count b). split; [exact H3|]. split; [exact H5|]. destruct b; simpl in *; subst; reflexivity.
Qed.
Print Assumptions worker_borders_exact.
Example worker_borders_ex :
  get_worker_borders (pool_of cex_contractors) 1 [Req 1 10 1 5; Req 0 10 2 2] = Some [Bd 1 1 1 1; Bd 0 2 2 3] /\
  get_worker_borders (pool_of cex_contractors) 2 [Req 0 10 3 5] = None.
Proof. vm_compute. split; reflexivity. Qed.

(** C19: the assigned time of a chain is distributed exactly. *)
Theorem assigned_time_distributed_exactly :
  forall volumes assigned, volumes <> [] -> Forall (fun v => 0 <= v) volumes ->
    0 <= assigned <= TIME_INF ->
    length (assigned_exec_times volumes assigned) = length volumes /\
    Forall (fun t => 0 <= t) (assigned_exec_times volumes assigned) /\
    fold_right Z.add 0 (assigned_exec_times volumes assigned) = assigned.
Proof. exact assigned_times_spec. Qed.
Print Assumptions assigned_time_distributed_exactly.
Example assigned_time_ex :
  assigned_exec_times [3; 1; 3] 10 = [4; 1; 5] /\ assigned_exec_times [0; 0; 0] 10 = [3; 3; 4].
Proof. vm_compute. split; reflexivity. Qed.

(** C41: when the spec names as many kinds as the work requires, the counts of the team
    are exactly the named ones. Otherwise the positively named kinds get their count and
    all other counts come from the optimizer, so are within the borders. *)
Theorem spec_team_counts :
  forall spec bs optimize counts, optimizer_ok optimize ->
    Forall (fun b => 0 <= bd_min b <= bd_max b) bs ->
    optimize_using_spec spec (map bd_kind bs) (map bd_count bs) (optimize bs) = Some counts ->
    Forall2 (fun b n =>
      match assoc_get spec (bd_kind b) with
      | Some m => n = m \/ (length spec <> length bs /\ m <= 0 /\ bd_min b <= n <= bd_max b)
      | None => bd_min b <= n <= bd_max b
      end) bs counts.
Proof.
  intros spec bs optimize counts Hopt Hb0 H. assert (HF := team_counts_spec spec bs optimize counts Hopt Hb0 H).
  clear H Hb0. destruct (Nat.eqb_spec (length spec) (length bs)) as [E|E].
  - clear E. generalize (length spec) (length bs). intros x y.
    induction HF as [|b n bs' counts' Hb _ IH]; constructor; auto.
    unfold count_ok in Hb. destruct (assoc_get spec (bd_kind b)); [left; exact Hb|exact Hb].
  - assert (HG : Forall2 (fun b n => match assoc_get spec (bd_kind b) with
                 | Some m => n = m \/ (m <= 0 /\ bd_min b <= n <= bd_max b) | None => bd_min b <= n <= bd_max b end) bs counts).
    { clear E. induction HF as [|b n bs' counts' Hb _ IH]; constructor; auto.
      unfold count_ok in Hb. destruct (assoc_get spec (bd_kind b)) as [m|]; [|exact Hb].
      simpl in Hb. destruct (Z.ltb_spec 0 m); [left; exact Hb|right; split; [lia|exact Hb]]. }
    clear HF. revert E. generalize (length spec) (length bs). intros x y E.
    induction HG as [|b n bs' counts' Hb _ IH]; constructor; auto.
    destruct (assoc_get spec (bd_kind b)); [|exact Hb]. destruct Hb as [Hb|[Hb1 Hb2]]; auto.
Qed.
Print Assumptions spec_team_counts.
(** Positions named by the spec are announced to the optimizer as not to be changed. *)
Theorem spec_team_flags :
  forall spec kinds counts optimize, spec <> [] -> length spec <> length kinds ->
    optimize_using_spec spec kinds counts optimize =
    optimize (Some (map (fun k => match assoc_get spec k with
                                        | Some n => negb (0 <? n) | None => true end) kinds))
                   (map (fun kc => match assoc_get spec (fst kc) with
                                   | Some n => if 0 <? n then n else snd kc | None => snd kc end)
                        (combine kinds counts)).
Proof.
  intros spec kinds counts optimize Hne Hl. unfold optimize_using_spec.
  destruct (Nat.eqb_spec (length spec) (length kinds)); [contradiction|].
  destruct spec; [congruence|reflexivity].
Qed.
Print Assumptions spec_team_flags.
Definition cex_borders : list border := [Bd 0 1 5 8; Bd 1 2 4 6].
(** the optimizer that takes the minimum wherever it may *)
Definition min_optimizer (bs : list border) (flags : option (list bool)) (counts : list Z) : option (list Z) :=
  match flags with
  | None => Some (map bd_min bs)
  | Some fs => Some (map (fun x => if snd (fst x) : bool then bd_min (fst (fst x)) else snd x)
                   (combine (combine bs fs) counts))
  end.
Lemma min_optimizer_ok : optimizer_ok min_optimizer.
Proof.
  intros bs flags counts res Hb Hl. destruct flags as [fs|]; intros [= <-].
  - intros Hf. revert fs counts Hf Hl. induction Hb as [|b bs Hb1 _ IH]; intros [|f fs] [|c cs] Hf Hl; simpl in *; try lia; auto.
    split; [destruct f; lia|]. apply IH; lia.
  - revert counts Hl. induction Hb as [|b bs Hb1 _ IH]; intros [|c cs] Hl; simpl in *; try lia; auto.
    split; [lia|]. apply IH. lia.
Qed.
Example spec_team_ex :
  optimize_using_spec [(1%nat, 3)] (map bd_kind cex_borders) (map bd_count cex_borders) (min_optimizer cex_borders) = Some [1; 3] /\
  optimize_using_spec [(1%nat, 3); (0%nat, 7)] (map bd_kind cex_borders) (map bd_count cex_borders) (min_optimizer cex_borders) = Some [7; 3] /\
  optimize_using_spec [] (map bd_kind cex_borders) (map bd_count cex_borders) (min_optimizer cex_borders) = Some [1; 2].
Proof. vm_compute. repeat split; reflexivity. Qed.
(** Finding: a spec that names as many kinds as the work requires, but other ones, makes
    the lookup of a count fail (KeyError). *)
Theorem spec_team_wrong_kind_crashes :
  exists spec bs optimize, length spec = length bs /\
    optimize_using_spec spec (map bd_kind bs) (map bd_count bs) optimize = None.
Proof.
  exists [(1%nat, 3); (5%nat, 2)], cex_borders, (min_optimizer cex_borders). vm_compute. split; reflexivity.
Qed.
Print Assumptions spec_team_wrong_kind_crashes.
