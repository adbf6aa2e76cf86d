(** Lemmas about the list scheduler over the release-time timeline with materials and zones. *)
From Coq Require Import ZArith List Bool Lia Arith Permutation.
From Coq Require Import ZifyBool ZifyNat.
From Verif Require Import TimeModel MomentumModel MomentumSpec MomentumHistory MomentumTeamProofs
  JITModel JITHistory JITProofs GraphModel ScheduleModel ScheduleSpec ContractorProofs ContractorTheorems TeamProofs ScheduleProofs
  SchedulePoolProofs ScheduleInv JitScheduleInv SiteModel SiteProofs JitSiteModel.
Import ListNotations.
Local Open Scope Z_scope.

Section Site.
  Variables (g : graph) (est : nat -> list worker -> Z) (site : Type).
  Variable material_time : site -> nat -> Z -> option Z.
  Variable deliver : site -> nat -> Z -> option (Z * site).
  Variable zone_time : site -> nat -> Z -> Z -> option Z.
  Variable occupy : site -> Z -> nat -> Z -> Z -> option site.
  Hypothesis Hmat : forall x n t r, material_time x n t = Some r -> r <= TIME_INF.
  Hypothesis Hdel : forall x n t r x', deliver x n t = Some (r, x') -> r <= TIME_INF.
  Hypothesis Hzone : forall x n t e r, zone_time x n t e = Some r -> - TIME_INF <= r <= TIME_INF.
  Hypothesis Hest : estimator_ok est.
  Variable p : pool.
  Hypothesis Hvol : forall n, 0 <= volume_of g n.

  Let find := jsite_find g est site material_time zone_time.
  Let place := jsite_place g est site deliver.
  Let schedule := jsite_schedule g est site material_time deliver zone_time occupy.

  (** ** Placement *)
  Lemma jsite_place_prec team c : forall chain curr times sd x fin sd' x',
    starts_after_predecessors g sd -> place team c curr chain times sd x = Some (fin, sd', x') -> starts_after_predecessors g sd'.
  Proof.
    induction chain as [|n chain IH]; intros curr times sd x fin sd' x' Hp H; simpl in H.
    - injection H as _ <- _. exact Hp.
    - destruct (match inseparable_parent g n with Some _ => _ | None => true end); [|discriminate].
      destruct (match times with Some _ => _ | None => _ end) as [t tr].
      destruct (deliver x n _) as [[a x1]|]; [|discriminate].
      eapply IH; [|exact H]. apply prec_ok_cons; [exact Hp|]. simpl. rewrite !tmax_spec. lia.
  Qed.
  Lemma jsite_place_shape team c : forall chain curr times sd x fin sd' x',
    match times with Some l => Forall (fun t => 0 <= t) l | None => True end -> curr <= TIME_INF ->
    place team c curr chain times sd x = Some (fin, sd', x') ->
    exists new, sd' = rev new ++ sd /\ map fst new = chain /\ consecutive team c curr new fin /\ fin <= TIME_INF.
  Proof.
    induction chain as [|n chain IH]; intros curr times sd x fin sd' x' Ht Hc H; simpl in H.
    - injection H as <- <- _. exists []. simpl. auto.
    - destruct (match inseparable_parent g n with Some _ => _ | None => true end); [|discriminate].
      assert (Hmin := min_start_range g sd n).
      assert (He := Hest n team).
      set (start0 := tmax (tadd curr 0) (min_start_time g sd n)) in *.
      assert (Hs : curr <= start0 <= TIME_INF).
      { unfold start0. rewrite tmax_spec. assert (A := tadd_ge curr 0 ltac:(lia) Hc).
        assert (B : tadd curr 0 <= TIME_INF) by apply set_time_range. lia. }
      clearbody start0.
      assert (Ht' : forall t tr, (match times with None => (est n team, None) | Some [] => (est n team, Some []) | Some (t :: tr) => (t, Some tr) end) = (t, tr) ->
          0 <= t /\ match tr with Some l => Forall (fun t => 0 <= t) l | None => True end).
      { intros t tr E. destruct times as [[|t0 tr0]|]; injection E as <- <-; [split; [lia|constructor]| |split; [lia|exact I]].
        inversion Ht; subst. auto. }
      destruct (match times with Some _ => _ | None => _ end) as [t tr].
      destruct (Ht' t tr eq_refl) as [H0 Htr].
      destruct (deliver x n start0) as [[a x1]|] eqn:Ed; [|discriminate]. apply Hdel in Ed.
      set (start := tmax a start0) in *.
      assert (Hs2 : curr <= start <= TIME_INF) by (unfold start; rewrite tmax_spec; lia). clearbody start.
      assert (R : tadd start t <= TIME_INF) by apply set_time_range.
      assert (G := tadd_ge start t H0 (proj2 Hs2)).
      destruct (IH _ _ _ _ _ _ _ Htr R H) as (new & A1 & A2 & A3 & A4).
      exists ((n, SW start (tadd start t) team c) :: new). split; [rewrite A1; simpl; rewrite <- app_assoc; reflexivity|].
      split; [simpl; congruence|]. split; [|exact A4]. simpl. repeat split; auto; lia.
  Qed.

  (** ** The search *)
  Lemma jagree_found x n exec ind t s st : jinv p s -> times_le TIME_INF s -> team_within p t ->
    repeat_until search_bound (agree site material_time zone_time x n exec (find_agents_time ind (to_workers t) s)) 0 = inr (Some st) ->
    0 <= st <= TIME_INF /\ late_enough ind t s st /\
    exists mt zt, material_time x n st = Some mt /\ mt <= st /\ zone_time x n st exec = Some zt /\ zt <= st.
  Proof.
    intros Hi Hle Htw E.
    assert (H := repeat_until_inv (fun c => 0 <= c <= TIME_INF)
      (fun r => forall st, r = Some st -> 0 <= st <= TIME_INF /\ late_enough ind t s st /\
         exists mt zt, material_time x n st = Some mt /\ mt <= st /\ zone_time x n st exec = Some zt /\ zt <= st)
      (agree site material_time zone_time x n exec (find_agents_time ind (to_workers t) s))).
    match type of H with ?A -> _ => assert (Hs : A) end.
    { intros cur Hc. unfold agree. destruct (find_agents_spec p s ind t Hi Htw cur) as (r & R1 & R2 & R3 & R4 & _).
      rewrite R1. assert (R5 := find_agents_le _ _ _ Hle _ cur r (proj2 Hc) R1).
      destruct (material_time x n r) as [mt|] eqn:E1; [|discriminate]. assert (B1 := Hmat _ _ _ _ E1).
      unfold tlt. destruct (Z.ltb_spec r mt); [lia|].
      destruct (zone_time x n r exec) as [zt|] eqn:E2; [|discriminate]. assert (B2 := Hzone _ _ _ _ _ E2).
      destruct (Z.ltb_spec r zt); [lia|].
      intros st0 [= <-]. split; [lia|]. split; [split; assumption|]. eauto 10. }
    specialize (H Hs search_bound 0 ltac:(cbv beta; inf; lia)). rewrite E in H. apply H. reflexivity.
  Qed.

  Lemma jsite_find_range sd sx n team ind apt st ft :
    find sd sx n team ind apt = Some (st, ft) -> - TIME_INF <= ft <= TIME_INF.
  Proof.
    intros H. destruct sx as [s x]. unfold find, jsite_find in H. destruct sd as [|y sd].
    - destruct (material_time x n apt) as [mt|] eqn:E1; [|discriminate]. destruct (zone_time x n mt 0) as [zt|] eqn:E2; [|discriminate].
      injection H as <- <-. exact (Hzone _ _ _ _ _ E2).
    - destruct (chain_of g n); [|discriminate]. destruct (repeat_until _ _ _) as [?|[r|]]; try discriminate.
      injection H as <- <-. apply set_time_range.
  Qed.

  (** ** One call of schedule *)
  Lemma jsite_schedule_spec sd s x n t c sp st apt sd' s' x' h :
    spec_ok sp -> jinv p s -> jcovers p h s -> times_le TIME_INF s -> team_within p t -> 0 <= st <= TIME_INF ->
    late_enough (sp_independent sp) t s st ->
    schedule sd (s, x) n (to_workers t) c sp (Some st) apt = Some (sd', (s', x')) ->
    exists chain new fin, chain_of g n = Some chain /\ sd' = rev new ++ sd /\ map fst new = chain /\
      consecutive (to_workers t) c st new fin /\ fin <= TIME_INF /\ jinv p s' /\ times_le TIME_INF s' /\
      jcovers p (map (fun w => (fst w, Bk st fin (snd w))) t ++ h) s' /\
      (starts_after_predecessors g sd -> starts_after_predecessors g sd').
  Proof.
    intros [_ Hspt] Hi Hcov Hle Hw Hst [L1 L2] H. unfold schedule, jsite_schedule in H.
    destruct (chain_of g n) as [chain|] eqn:Ech; [|discriminate].
    set (times := match sp_time sp with Some a => _ | None => None end) in H.
    destruct (jsite_place _ _ _ _ _ _ _ _ _ _ _) as [[[fin sd1] x1]|] eqn:Ep; [|discriminate].
    assert (Ht : match times with Some l => Forall (fun t => 0 <= t) l | None => True end).
    { unfold times. destruct (sp_time sp) as [a|]; [|exact I].
      destruct (chain_head _ _ _ Ech) as [r Er].
      destruct (assigned_times_spec (map (volume_of g) chain) a) as (A1 & A2 & _); [rewrite Er; discriminate| |exact Hspt|exact A2].
      apply Forall_forall. intros v Hv. apply in_map_iff in Hv as (m & <- & _). apply Hvol. }
    destruct (jsite_place_shape _ _ _ _ _ _ _ _ _ _ Ht (proj2 Hst) Ep) as (new & A1 & A2 & A3 & A4).
    assert (Hf := consecutive_le _ _ _ _ _ A3).
    destruct (jit_update_spec p (sp_independent sp) fin st t s Hi Hw) as (s1 & U1 & U2 & _ & U3).
    rewrite U1 in H. destruct (occupy _ _ _ _ _) as [x2|]; [|discriminate]. injection H as <- <- <-.
    exists chain, new, fin. do 6 (split; [first [reflexivity|assumption]|]).
    split; [eapply jit_update_times; [exact A4|exact Hle|exact U1]|]. split; [apply U3; auto|].
    intros Hp. eapply jsite_place_prec; eauto.
  Qed.

  (** ** The scheduler *)
  Section Loop.
    Variable optimize : nat -> nat -> sched -> jtimeline * site -> list border -> option (list bool) -> list Z -> option (list Z).
    Variables (cs : list contractor) (spec : nat -> work_spec) (apt : Z).
    Hypothesis Hp : p = pool_of cs.
    Hypothesis Hcs : contractors_ok cs.
    Hypothesis Hopt : forall n c sd s, optimizer_ok (optimize n c sd s).
    Hypothesis Hreqs : forall n, reqs_ok (reqs_of g n).
    Hypothesis Hspec : forall n, spec_ok (spec n).
    Hypothesis Hfit : forall n, spec_fits cs (reqs_of g n) (spec n).
    Hypothesis Hapt : 0 <= apt <= TIME_INF.

    Let step := build_step (jtimeline * site) find schedule (reqs_of g) optimize cs spec.
    Let loop := build_loop (jtimeline * site) find schedule (reqs_of g) optimize cs spec.

    Lemma jsite_runner_range sd s n c st ft tm :
      run_with_contractor (jtimeline * site) find (reqs_of g) optimize cs spec sd s n apt c = Done (st, ft, tm) ->
      - TIME_INF <= ft <= TIME_INF.
    Proof.
      unfold run_with_contractor. inf. destruct (get_worker_borders _ _ _) as [bs|].
      2: { intros [= <- <- <-]. unfold time_inf. apply set_time_range. }
      destruct (optimize_using_spec _ _ _ _) as [counts|]; [|discriminate].
      destruct (find _ _ _ _ _ _) as [[st' ft']|] eqn:Ef; [|discriminate]. intros [= <- <- <-].
      eapply jsite_find_range; eauto.
    Qed.

    (** What one step does: the chosen contractor, team and start, and the call. *)
    Lemma jsite_step_call is_first is_last n sd s x sd' s' x' : jinv p s -> times_le TIME_INF s ->
      (is_first = true -> sd = [] /\ s = jit_init p) -> (is_first = false -> sd <> []) ->
      step is_first is_last apt n sd (s, x) = Done (sd', (s', x')) ->
      exists ct t st, In ct cs /\ team_ok t /\ team_within p t /\
        0 <= st <= TIME_INF /\ late_enough (sp_independent (spec n)) t s st /\
        (forall w, sw_team w = to_workers t -> sw_contractor w = ct_id ct -> staffed g cs spec n w) /\
        schedule sd (s, x) n (to_workers t) (ct_id ct) (spec n) (Some st) apt = Some (sd', (s', x')) /\
        (is_first = true \/ exists chain, chain_of g n = Some chain /\
           is_inf (tadd st (jit_chain_exec g est sd (to_workers t) 0 chain)) = false /\
           exists mt zt, material_time x n st = Some mt /\ mt <= st /\
             zone_time x n st (jit_chain_exec g est sd (to_workers t) 0 chain) = Some zt /\ zt <= st).
    Proof.
      intros I1 I3 Hfirst Hnf H. unfold step, build_step in H.
      destruct (run_contractor_search _ _ _) as [[[[st ft] ct] team]| |] eqn:Es; try discriminate.
      apply contractor_search_best in Es; [|intros c0 st0 ft0 tm0; apply jsite_runner_range]. destruct Es as (Ein & Er & Eft & _).
      destruct (runner_team _ _ _ _ _ _ _ _ _ _ _ _ _ Hopt (Hreqs n) (Hspec n) Er Eft) as (t & -> & Ht & Et & _ & Ef & HF).
      assert (Hct : In ct cs /\ contractor_enabled (spec n) (ct_id ct) = true).
      { unfold filter_contractors in Ein. apply filter_In in Ein. exact Ein. }
      assert (Hen : sp_contractors (spec n) = [] \/ In (ct_id ct) (sp_contractors (spec n))).
      { destruct Hct as [_ Hct2]. unfold contractor_enabled in Hct2. destruct (sp_contractors (spec n)) as [|z l]; [auto|].
        right. apply existsb_exists in Hct2 as (y & Hy & Hey). apply Nat.eqb_eq in Hey. subst y. exact Hy. }
      assert (Htw : team_within p t) by (rewrite Hp; eapply team_within_of; eauto).
      set (st1 := if is_first then apt else st) in H.
      set (st2 := if is_last then tmax st1 0 else st1) in H.
      destruct (schedule _ _ _ _ _ _ _ _) as [[sd1 sx1]|] eqn:Em; [|discriminate].
      injection H as -> ->.
      assert (Hst1 : 0 <= st1 <= TIME_INF /\ late_enough (sp_independent (spec n)) t s st1 /\
        (is_first = true \/ exists chain, chain_of g n = Some chain /\
           is_inf (tadd st1 (jit_chain_exec g est sd (to_workers t) 0 chain)) = false /\
           exists mt zt, material_time x n st1 = Some mt /\ mt <= st1 /\
             zone_time x n st1 (jit_chain_exec g est sd (to_workers t) 0 chain) = Some zt /\ zt <= st1)).
      { unfold st1. destruct is_first.
        - destruct (Hfirst eq_refl) as [_ ->]. split; [exact Hapt|]. split; [apply late_init; [lia|exact Htw]|left; reflexivity].
        - unfold find, jsite_find in Ef. destruct sd as [|z sd0]; [exfalso; apply Hnf; reflexivity|].
          destruct (chain_of g n) as [chain|] eqn:Ech; [|discriminate].
          destruct (repeat_until _ _ _) as [?|[r|]] eqn:Ea; try discriminate. injection Ef as <- <-.
          destruct (jagree_found _ _ _ _ _ _ _ I1 I3 Htw Ea) as (B1 & B2 & B3).
          split; [exact B1|]. split; [exact B2|]. right. exists chain. auto. }
      assert (Est : st2 = st1) by (unfold st2; destruct is_last; [rewrite tmax_spec; lia|reflexivity]).
      rewrite Est in Em. clearbody st1. destruct Hst1 as (S1 & S2 & S3).
      exists ct, t, st1. split; [apply Hct|]. do 4 (split; [assumption|]). split; [|split; assumption].
      intros w B3 B4. exists ct. destruct Hct as [Hct1 Hct2]. split; [exact Hct1|]. split; [exact B4|]. split; [exact Hen|].
      rewrite B3. clear -HF Hcs Hct1. change (u_reqs (g_unit g n)) with (reqs_of g n). revert HF.
      generalize (length (reqs_of g n)) as ln. intros ln HF.
      induction HF as [|rq k rs tm (D1 & D2 & D3 & cap & D4 & D5) HF IH]; constructor; [|exact IH].
      split; [exact D1|]. split; [exact D2|]. split; [exact D3|]. exists cap.
      split; [eapply capacity_pool_own; eauto|]. intros Hno. unfold count_ok in D5.
      rewrite Hno in D5. simpl in D5. lia.
    Qed.

    Lemma jsite_step_inv is_first is_last n chains sd s x h sd' s' x' c :
      jtinv g p (staffed g cs spec) chains sd s h ->
      (is_first = true -> sd = [] /\ s = jit_init p) -> (is_first = false -> sd <> []) ->
      chain_of g n = Some c -> NoDup (concat (chains ++ [c])) ->
      step is_first is_last apt n sd (s, x) = Done (sd', (s', x')) ->
      sd' <> [] /\ exists h', jtinv g p (staffed g cs spec) (chains ++ [c]) sd' s' h'.
    Proof.
      intros HI Hfirst Hnf Hch Hnd H.
      destruct (jsite_step_call _ _ _ _ _ _ _ _ _ (j_inv _ _ _ _ _ _ _ HI) (j_le _ _ _ _ _ _ _ HI) Hfirst Hnf H)
        as (ct & t & st & Hct & Ht & Htw & Hst & Hlate & Hstaff & Em & _).
      destruct (jsite_schedule_spec sd s x n t (ct_id ct) (spec n) st apt sd' s' x' h (Hspec n)
        (j_inv _ _ _ _ _ _ _ HI) (j_cov _ _ _ _ _ _ _ HI) (j_le _ _ _ _ _ _ _ HI) Htw Hst Hlate Em)
        as (chain & new & fin & A1 & A2 & A3 & A4 & A5 & A6 & A7 & A8 & A9).
      rewrite Hch in A1. injection A1 as <-.
      eapply (jplaced_inv g p Hvol (staffed g cs spec) n (ct_id ct) t st chains sd s h sd' s' c new fin); auto; [lia|].
      apply A9, (j_prec _ _ _ _ _ _ _ HI).
    Qed.

    Lemma jsite_loop_inv : forall nodes is_first chains rest sd s x h sd' s' x',
      jtinv g p (staffed g cs spec) chains sd s h ->
      (is_first = true -> sd = [] /\ s = jit_init p) -> (is_first = false -> sd <> []) ->
      chains_of g nodes = Some rest -> NoDup (concat (chains ++ rest)) ->
      loop is_first apt nodes sd (s, x) = Done (sd', (s', x')) ->
      exists h', jtinv g p (staffed g cs spec) (chains ++ rest) sd' s' h'.
    Proof.
      induction nodes as [|n nodes IH]; intros is_first chains rest sd s x h sd' s' x' HI Hf Hnf Hch Hnd H.
      - simpl in Hch. injection Hch as <-. rewrite app_nil_r. simpl in H. injection H as <- <- <-. eauto.
      - cbn [chains_of] in Hch. destruct (chain_of g n) as [c|] eqn:Ec; [|discriminate].
        destruct (chains_of g nodes) as [rest'|] eqn:Er; [|discriminate]. injection Hch as <-.
        unfold loop in H. cbn [build_loop] in H. fold loop in H. fold step in H.
        destruct (step _ _ _ _ _ _) as [[sd1 [s1 x1]]| |] eqn:Es; try discriminate.
        assert (Eapp : chains ++ c :: rest' = (chains ++ [c]) ++ rest') by (rewrite <- app_assoc; reflexivity).
        rewrite Eapp in *. rewrite concat_app in Hnd.
        assert (Hs := jsite_step_inv _ _ _ _ _ _ _ _ _ _ _ _ HI Hf Hnf Ec (nodup_app_l _ _ Hnd) Es).
        destruct Hs as [Hne [h1 HI1]].
        apply (IH false (chains ++ [c]) rest' sd1 s1 x1 h1 sd' s' x'); auto.
        + discriminate.
        + rewrite concat_app. exact Hnd.
    Qed.

    Lemma jtinv_start : jtinv g p (staffed g cs spec) [] [] (jit_init p) [].
    Proof.
      destruct (jit_init_inv _ (pool_of_ok cs Hcs)) as [I1 I2]. rewrite Hp.
      constructor; [reflexivity|exact I1|exact I2|apply jit_init_times; inf; lia| | | | |]; try (intros; contradiction).
      + intros a t. cbn. lia.
      + intros l1 v w l2 E. destruct l1; discriminate.
    Qed.

    Lemma jsite_build_feasible x0 nodes chains sd s x :
      chains_of g nodes = Some chains -> NoDup (concat chains) ->
      (forall e, In e (g_edges g) -> In (e_from e) (concat chains) -> In (e_to e) (concat chains) ->
         comes_before (concat chains) (e_from e) (e_to e)) ->
      jsite_build g est site material_time deliver zone_time occupy optimize cs spec x0 apt nodes = Done (sd, (s, x)) ->
      map fst sd = rev (concat chains) /\
      (forall n w, In (n, w) sd -> 0 <= sw_start w <= sw_finish w /\ sw_finish w <= TIME_INF) /\
      (forall e wu wv, In e (g_edges g) -> In (e_from e, wu) sd -> In (e_to e, wv) sd ->
         tadd (sw_finish wu) (e_lag e) <= sw_start wv) /\
      (forall c u v wu wv, In c chains -> comes_before c u v -> In (u, wu) sd -> In (v, wv) sd ->
         sw_finish wu <= sw_start wv /\ sw_team wu = sw_team wv /\ sw_contractor wu = sw_contractor wv) /\
      (forall hd r n w, In (hd :: r) chains -> In n (hd :: r) -> In (n, w) sd -> staffed g cs spec hd w) /\
      (forall ct k n t, In ct cs -> In (k, n) (ct_workers ct) ->
         busy (schedule_bookings sd) (ct_id ct, k) t <= n).
    Proof.
      intros Hch Hnd Htopo H. unfold jsite_build in H. rewrite <- Hp in H.
      assert (HI : exists h, jtinv g p (staffed g cs spec) ([] ++ chains) sd s h).
      { eapply (jsite_loop_inv nodes true); [apply jtinv_start|auto|discriminate|exact Hch|exact Hnd|exact H]. }
      destruct HI as [h [K I1 I2 I3 L T TM P C]]. simpl in *.
      split; [assumption|]. split; [assumption|]. split.
      { apply (earlier_prec g chains sd); assumption. }
      do 2 (split; [assumption|]). intros ct k n t Hct Hin.
      assert (Hcap := capacity_pool cs ct k n Hcs Hct Hin).
      eapply Z.le_trans; [apply L|]. eapply busy_ge_zero_time; eauto. rewrite Hp. exact Hcap.
    Qed.
  End Loop.
End Site.
