(** The list scheduler over the release-time timeline on a site with zones and no materials
    does not crash. *)
From Coq Require Import ZArith List Bool Lia Arith.
From Coq Require Import ZifyBool ZifyNat.
From Verif Require Import TimeModel MomentumModel MomentumSpec MomentumHistory MomentumTeamProofs
  JITModel JITHistory JITProofs GraphModel ScheduleModel ScheduleSpec ContractorProofs ContractorTheorems TeamProofs ScheduleProofs
  SchedulePoolProofs ScheduleInv JitScheduleInv ScheduleSafe JitScheduleSafe ZoneModel ZoneProofs ZoneTheorems
  SiteModel SiteProofs SiteZoneProofs SiteSafe JitSiteModel JitSiteProofs JitSiteZone.
From Verif Require SupplyModel.
Import ListNotations.
Local Open Scope Z_scope.

Section Safe.
  Variables (g : graph) (est : nat -> list worker -> Z)
    (optimize : nat -> nat -> sched -> jtimeline * land -> list border -> option (list bool) -> list Z -> option (list Z))
    (cs : list contractor) (spec : nat -> work_spec) (apt D Lg : Z).
  Variable route : Z -> nat -> nat -> list nat.
  Variable overcome : nat -> Z.
  Variable holders : nat -> list SupplyModel.depot.
  Variable storage : nat -> nat -> Z.
  Variable platform : nat -> nat.
  Variable needs : nat -> SupplyModel.request.
  Variable cost : nat -> nat -> Z.
  Variable zones : nat -> list zreq.
  Variable start : nat -> option nat.
  Let mtime := land_material_time route overcome holders storage platform needs.
  Let deliv := land_deliver route overcome holders storage platform needs.
  Let ztime := land_zone_time cost zones.
  Let occup := land_occupy cost zones.
  Let lmat := land_mat route overcome holders storage platform needs.
  Let ldel := land_del route overcome holders storage platform needs.
  Let lzone := land_zone_range cost zones.
  Hypothesis Hcs : contractors_ok cs.
  Hypothesis Hest : estimator_ok est.
  Hypothesis Hopt : forall n c sd s, optimizer_ok (optimize n c sd s).
  Hypothesis Hans : optimizer_answers (jsite_find g est land mtime ztime) optimize (reqs_of g) cs spec apt.
  Hypothesis Hreqs : forall n, reqs_ok (reqs_of g n).
  Hypothesis Hspec : forall n, spec_ok (spec n).
  Hypothesis Hapt : 0 <= apt <= TIME_INF.
  Hypothesis Hvol : forall n, 0 <= volume_of g n.
  Hypothesis Hfit : forall n, spec_fits cs (reqs_of g n) (spec n).
  Hypothesis Hsingle : single_inseparable_parent g.
  Hypothesis Hlags : inseparable_lags_ok g.
  Hypothesis HD : 0 <= D /\ estimates_bounded g est cs spec D.
  Hypothesis HL : 0 <= Lg /\ forall e, In e (g_edges g) -> e_lag e <= Lg.
  Hypothesis Hnotime : forall n, sp_time (spec n) = None.
  Hypothesis Hneeds : forall n, needs n = [].
  Hypothesis cost0 : forall s q, s <> q -> cost s q = 0.
  Hypothesis Hzones : forall n, NoDup (map fst (zones n)) /\ forall r, In r (zones n) -> start (fst r) <> None.
  Hypothesis Hnolag : forall n c e, chain_of g n = Some c -> zones n <> [] -> In e (g_edges g) -> In (e_from e) c -> In (e_to e) c -> e_lag e <= 0.

  Let jfind := jsite_find g est land mtime ztime.
  Let sched1 := jsite_schedule g est land mtime deliv ztime occup.
  Let step := build_step (jtimeline * land) jfind sched1 (reqs_of g) optimize cs spec.
  Let loop := build_loop (jtimeline * land) jfind sched1 (reqs_of g) optimize cs spec.
  Let p := pool_of cs.
  Local Notation zbelow := (zbelow start).
  Let nomat x n t : - TIME_INF <= t <= TIME_INF -> mtime x n t = Some t.
  Proof. intros H. unfold mtime, land_material_time. rewrite Hneeds. cbn. rewrite set_time_in by exact H. reflexivity. Qed.

  (** The search finds a start. *)
  Lemma jsite_find_ok B sd s x occ n t c ind : jinv p s -> jbelow B sd s -> zbelow B sd x occ -> apt <= B -> team_within p t ->
    (forall m, In m c -> est m (to_workers t) <= D) ->
    chain_of g n = Some c -> 2 * (B + 1) + Lg + Z.of_nat (length c) * D < TIME_INF ->
    exists st ft, jfind sd (s, x) n (to_workers t) ind apt = Some (st, ft) /\ 0 <= st <= B + 1 /\ 0 <= ft < TIME_INF /\
      (sd <> [] -> forall r, In r (zones n) -> zone_ok (snd x) occ st (jit_chain_exec g est sd (to_workers t) 0 c) r).
  Proof.
    intros Hi [HB1 HB2] [HW _] Hb Htw Hed Hc Hinf. destruct (Hzones n) as [Znd Zst].
    destruct HD as [HD0 HD1], HL as [HL0 HL1].
    unfold jfind, jsite_find. destruct sd as [|y sd0] eqn:Es.
    - rewrite nomat by (inf; lia).
      destruct (find_ok cost cost0 start (snd x) occ B (zones n) apt 0 HW Znd Zst ltac:(lia) ltac:(lia) ltac:(nia)) as (zt & Ezt & Hzt & Hok).
      unfold ztime, land_zone_time. rewrite Ezt. cbn [option_map]. rewrite set_time_in by (inf; nia).
      exists zt, zt. split; [reflexivity|]. split; [lia|]. split; [nia|]. congruence.
    - rewrite Hc. rewrite <- Es in *. clear y sd0 Es.
      assert (He := jit_exec_le g est D Lg Hest HL0 HL1 sd (to_workers t) c 0 B Hed HD0 ltac:(lia) ltac:(lia) HB1).
      set (exec := jit_chain_exec g est sd (to_workers t) 0 c) in *.
      set (U := B + 1).
      assert (Hround : forall cur, 0 <= cur <= U ->
        match agree land mtime ztime x n exec (find_agents_time ind (to_workers t) s) cur with
        | inl a' => 0 <= a' <= U /\ cur < a'
        | inr o => exists r, o = Some r /\ 0 <= r <= U /\ forall q, In q (zones n) -> zone_ok (snd x) occ r exec q
        end).
      { intros cur Hcur. unfold agree. destruct (find_agents_spec p s ind t Hi Htw cur) as (r & R1 & R2 & _).
        rewrite R1. assert (R5 := find_agents_le U _ _ ltac:(intros a q z Ha Hz; specialize (HB2 a q z Ha Hz); unfold U; lia) _ cur r (proj2 Hcur) R1).
        rewrite nomat by (inf; unfold U in *; nia). unfold tlt. rewrite Z.ltb_irrefl.
        destruct (find_ok cost cost0 start (snd x) occ B (zones n) r exec HW Znd Zst ltac:(lia) ltac:(lia) ltac:(unfold U in *; nia)) as (zt & Ezt & Hzt & Hok).
        unfold ztime, land_zone_time. rewrite Ezt. cbn [option_map]. rewrite set_time_in by (inf; unfold U in *; nia).
        destruct (Z.ltb_spec r zt).
        - split; [unfold U in *; lia|lia].
        - assert (zt = r) by lia. subst zt. exists r. split; [reflexivity|]. split; [lia|exact Hok]. }
      assert (Hend := repeat_until_ends (fun cur => 0 <= cur <= U) (fun cur => U - cur) (agree land mtime ztime x n exec (find_agents_time ind (to_workers t) s))
                ltac:(intros ? ?; cbv beta in *; lia)).
      assert (Hinv := repeat_until_inv (fun cur => 0 <= cur <= U)
                (fun o => exists r, o = Some r /\ 0 <= r <= U /\ forall q, In q (zones n) -> zone_ok (snd x) occ r exec q)
                (agree land mtime ztime x n exec (find_agents_time ind (to_workers t) s))).
      match type of Hend with ?A -> _ => assert (Hs : A) end.
      { intros cur Hcur. specialize (Hround cur Hcur). destruct (agree _ _ _ _ _ _ _ _); [split; lia|exact I]. }
      specialize (Hend Hs search_bound 0 ltac:(cbv beta; unfold U; lia)). clear Hs.
      match type of Hinv with ?A -> _ => assert (Hs : A) end.
      { intros cur Hcur. specialize (Hround cur Hcur). destruct (agree _ _ _ _ _ _ _ _); [apply Hround|exact Hround]. }
      specialize (Hinv Hs search_bound 0 ltac:(cbv beta; unfold U; lia)). clear Hs.
      assert (Eb : Zpos search_bound = TIME_INF + 2) by reflexivity.
      destruct (repeat_until search_bound (agree land mtime ztime x n exec _) 0) as [a|o].
      { exfalso. destruct Hend as [H1 H2]. unfold U in *. lia. }
      destruct Hinv as (r & -> & Hr & Hz).
      assert (Eft : tadd r exec = r + exec) by (apply tadd_exact; unfold U in *; nia).
      assert (Hall : exists st ft, Some (r, tadd r exec) = Some (st, ft) /\ 0 <= st <= U /\ 0 <= ft < TIME_INF /\
        (sd <> [] -> forall q, In q (zones n) -> zone_ok (snd x) occ st exec q)).
      { exists r, (tadd r exec). split; [reflexivity|]. split; [exact Hr|]. split; [rewrite Eft; unfold U in *; nia|]. intros _. exact Hz. }
      destruct sd; exact Hall.
  Qed.

  Lemma jsite_runner_ok B sd s x occ n c ct : jinv p s -> jbelow B sd s -> zbelow B sd x occ -> apt <= B -> In ct (filter_contractors (spec n) cs) ->
    chain_of g n = Some c -> 2 * (B + 1) + Lg + Z.of_nat (length c) * D < TIME_INF ->
    exists st ft tm, run_with_contractor (jtimeline * land) jfind (reqs_of g) optimize cs spec sd (s, x) n apt ct = Done (st, ft, tm) /\
      ((get_worker_borders p (ct_id ct) (reqs_of g n) = None /\ ft = TIME_INF) \/
       exists t, tm = to_workers t /\ team_within p t /\ (forall m, In m c -> est m (to_workers t) <= D) /\ 0 <= st <= B + 1 /\ 0 <= ft < TIME_INF /\
         (sd <> [] -> forall r, In r (zones n) -> zone_ok (snd x) occ st (jit_chain_exec g est sd (to_workers t) 0 c) r)).
  Proof.
    intros Hi HB HZ Hb Hct Hc Hinf. apply enabled_cases in Hct as [Hct Hen].
    unfold run_with_contractor. fold p. destruct (get_worker_borders p (ct_id ct) (reqs_of g n)) as [bs|] eqn:Eb.
    2: { do 3 eexists. split; [reflexivity|]. left. split; reflexivity. }
    destruct HD as [HD0 HD1].
    assert (Hf : forall t, team_within p t -> (forall m, In m c -> est m (to_workers t) <= D) ->
      exists st ft, jfind sd (s, x) n (to_workers t) (sp_independent (spec n)) apt = Some (st, ft) /\ 0 <= st <= B + 1 /\ 0 <= ft < TIME_INF /\
         (sd <> [] -> forall r, In r (zones n) -> zone_ok (snd x) occ st (jit_chain_exec g est sd (to_workers t) 0 c) r)).
    { intros t Htw Hed. apply (jsite_find_ok B); auto. }
    destruct (optimize_using_spec _ _ _ _) as [counts|] eqn:Eo.
    2: { exfalso. revert Eo. eapply spec_total'; [apply Hfit|exact Eb|]. intros Hne.
         apply (Hans n (ct_id ct) sd (s, x) bs Eb Hne). intros counts Hw.
         assert (HC : Forall2 (count_ok [] false) bs counts) by (unfold count_ok; exact Hw).
         destruct (counted_team p (reqs_of g n) [] false (ct_id ct) bs counts (Hreqs n) ltac:(intros k m []) Eb HC) as (t & T1 & T2 & T3 & T4 & T5).
         assert (Hed : forall m, In m c -> est m (to_workers t) <= D).
         { intros m Hm. rewrite <- T1. apply (HD1 n c m ct); auto. apply (team_for_of p ct (spec n) [] false); [intros k y []|exact T5]. }
         unfold team_of_counts. rewrite T1 in *. destruct (Hf t) as (st & ft & F1 & _); [| |unfold jfind in F1; rewrite F1; discriminate].
         apply (team_within_of cs (fun _ => WSpec [] [] None false) n ct t (reqs_of g n)); [exact Hcs| |exact T2|exact T3|left; reflexivity|].
         - split; [intros ? ? ? ? ? ? []|]. cbn. intros El r Hr. destruct (reqs_of g n); [destruct Hr|discriminate].
         - cbn [sp_workers]. clear -T5. induction T5 as [|r k rs ks (W1 & W2 & W3 & cap & W4 & W5) _ IH]; constructor; [eauto 8|exact IH].
         - exact Hed. }
    destruct (chosen_team _ _ _ _ _ _ _ (Hopt n (ct_id ct) sd (s, x)) (Hreqs n) (proj1 (Hspec n)) Eb Eo) as (t & T1 & T2 & T3 & T4 & T5).
    set (tm := map (fun kc => Wk _ _ _) _) in *.
    assert (Htw : team_within p t).
    { rewrite T1 in T3, T5. eapply team_within_of; eauto. }
    assert (Hed : forall m, In m c -> est m (to_workers t) <= D).
    { intros m Hm. rewrite <- T1. apply (HD1 n c m ct); auto. eapply team_for_of; [|exact T5]. auto. }
    destruct (Hf t Htw Hed) as (st & ft & Hf' & F1 & F2 & F3). rewrite T1, Hf'. do 3 eexists. split; [reflexivity|]. right. exists t. auto 8.
  Qed.

  Lemma jsite_step_safe B is_first is_last sd s x occ n c : jinv p s -> jbelow B sd s -> zbelow B sd x occ -> apt <= B ->
    (is_first = true -> zones n = []) -> (is_first = false -> sd <> []) ->
    (forall m w, In m c -> In (m, w) sd -> False) ->
    inseparable_parent g n = None ->
    chain_of g n = Some c -> 2 * (B + 1 + Z.of_nat (length c) * (D + Lg)) < TIME_INF ->
    match step is_first is_last apt n sd (s, x) with
    | Crash => False
    | NoContractor => forall ct, In ct cs -> (sp_contractors (spec n) = [] \/ In (ct_id ct) (sp_contractors (spec n))) ->
                        ~ able ct (reqs_of g n)
    | Done (sd', (s', x')) => jbelow (B + 1 + Z.of_nat (length c) * (D + Lg)) sd' s' /\
        exists occ', zbelow (B + 1 + Z.of_nat (length c) * (D + Lg)) sd' x' occ'
    end.
  Proof.
    intros Hi HB HZ Hb Hfirst Hnf Hdis Hp Hc Hinf0.
    assert (Hlc : (1 <= length c)%nat) by (destruct (chain_head _ _ _ Hc) as [r ->]; simpl; lia).
    assert (HD0 := proj1 HD). assert (HL0 := proj1 HL).
    assert (Hinf : 2 * (B + 1) + Lg + Z.of_nat (length c) * D < TIME_INF) by nia.
    assert (HR : forall ct, In ct (filter_contractors (spec n) cs) -> exists r,
              run_with_contractor (jtimeline * land) jfind (reqs_of g) optimize cs spec sd (s, x) n apt ct = Done r).
    { intros ct Hct. destruct (jsite_runner_ok B sd s x occ n c ct Hi HB HZ Hb Hct Hc Hinf) as (st & ft & tm & R & _). eauto. }
    assert (HRg : forall c0 st0 ft0 tm0, run_with_contractor (jtimeline * land) jfind (reqs_of g) optimize cs spec sd (s, x) n apt c0 = Done (st0, ft0, tm0) ->
              - TIME_INF <= ft0 <= TIME_INF).
    { intros c0 st0 ft0 tm0. apply (jsite_runner_range g est land mtime ztime lzone optimize cs spec apt). }
    unfold step, build_step.
    destruct (run_contractor_search _ cs (spec n)) as [[[[st ft] ct] team]| |] eqn:Es.
    - apply contractor_search_best in Es; [|exact HRg]. destruct Es as (Ein & Er & Eft & _).
      destruct (jsite_runner_ok B sd s x occ n c ct Hi HB HZ Hb Ein Hc Hinf) as (st' & ft' & tm' & R & R').
      rewrite R in Er. injection Er as -> -> ->.
      destruct R' as [[_ ->]|(t & -> & Hw & Hed & R1 & R2 & R3)]; [discriminate|].
      set (st1 := if is_first then apt else st).
      assert (H1 : 0 <= st1 <= B + 1) by (unfold st1; destruct is_first; lia).
      assert (Hz1 : forall r, In r (zones n) -> zone_ok (snd x) occ st1 (jit_chain_exec g est sd (to_workers t) 0 c) r).
      { unfold st1. destruct is_first; [rewrite (Hfirst eq_refl); intros r []|]. apply R3, Hnf. reflexivity. }
      assert (E2 : (if is_last then tmax st1 0 else st1) = st1) by (destruct is_last; [rewrite tmax_spec; lia|reflexivity]).
      rewrite E2. clearbody st1.
      unfold sched1, jsite_schedule. rewrite Hc, Hnotime.
      destruct (chain_linked g n c Hsingle Hlags Hp Hc) as (r & Er & Hlk).
      destruct (jit_place_total g est (to_workers t) (ct_id ct) n r st1 None sd Hp Hlk) as (fin & sd' & Epl). rewrite <- Er in Epl.
      unfold deliv. rewrite (jplace_nothing g est route overcome holders storage platform needs) by (auto; lia). rewrite Epl.
      destruct HL as [_ HL1]. destruct HB as [HB1 HB2].
      assert (HB1' : forall m w, In (m, w) sd -> sw_finish w <= B + 1) by (intros m w Hin; apply HB1 in Hin; lia).
      destruct (jit_place_le g est D Lg Hest HL0 HL1 _ _ _ _ _ _ _ (B + 1) Hed HD0 H1 ltac:(nia) HB1' Epl) as [P1 P2].
      destruct (jit_update_spec p (sp_independent (spec n)) fin 0 t s Hi Hw) as (s1 & U1 & _). rewrite U1.
      assert (Hst1 : st1 <= TIME_INF) by nia.
      destruct (jit_place_shape g est _ _ Hest _ _ None _ _ _ I Hst1 Epl) as (new & N1 & N2 & N3 & N4).
      assert (Hsf := consecutive_le _ _ _ _ _ N3).
      assert (Hne : new <> []) by (intros ->; rewrite Er in N2; discriminate).
      assert (Hlen : (length sd < length sd')%nat) by (rewrite N1, app_length, rev_length; destruct new; [congruence|simpl; lia]).
      set (B' := B + 1 + Z.of_nat (length c) * (D + Lg)) in *.
      destruct HZ as [HW HI]. destruct (Hzones n) as [Znd Zst].
      assert (Hjb : jbelow B' sd' s1).
      { split; [exact P2|]. eapply jit_update_times; [exact P1| |exact U1].
        intros a q y Ha Hx. specialize (HB2 a q y Ha Hx). unfold B'. nia. }
      assert (Hup : exists tl' ts, update_zones cost (Z.of_nat (length sd')) (snd x) (zones n) st1 (fin - st1) = Some (tl', ts) /\
        winv start tl' (occ ++ map (fun zr => Oc (Z.of_nat (length sd')) (fst zr) (snd zr) st1 (st1 + (fin - st1))) (zones n)) B').
      { destruct (update_ok cost cost0 start (Z.of_nat (length sd')) st1 (fin - st1) B' ltac:(lia) ltac:(lia) ltac:(lia) ltac:(lia) ltac:(lia)
                  (zones n) (snd x) occ) as (tl' & ts & Eup & W'); [| | |eauto].
        - eapply winv_mono; [|exact HW]. unfold B'. nia.
        - exact Znd.
        - intros zr Hr. split; [eapply zone_ok_shorter; [|apply Hz1; exact Hr]|].
          + assert (Hzn : zones n <> []) by (intros E; rewrite E in Hr; destruct Hr).
            assert (F : fin <= st1 + jit_chain_exec g est sd (to_workers t) 0 c /\ 0 <= jit_chain_exec g est sd (to_workers t) 0 c <= fin).
            { apply (jit_place_fin g est (to_workers t) (ct_id ct) st1 sd Hest (proj1 H1) c [] st1 0 fin sd'); [lia|lia|lia|lia| | | | |exact Epl].
              - intros m w [].
              - intros e w He [[]|Hfr] Hto. eapply Hnolag; eauto.
              - intros m w w' [].
              - exact Hdis. }
            lia.
          + split; [apply Zst, Hr|]. intros o Ho _. specialize (HI o Ho). lia. }
      destruct Hup as (tl' & ts & Eup & W').
      unfold occup, land_occupy. rewrite tsub_exact by lia. rewrite Eup.
      split; [exact Hjb|]. eexists. split; [exact W'|].
      intros o Ho. apply in_app_or in Ho as [Ho|Ho]; [specialize (HI o Ho); lia|]. apply in_map_iff in Ho as (zr & <- & _). cbn. lia.
    - intros ct Hct Hen. assert (Hf : In ct (filter_contractors (spec n) cs)).
      { unfold filter_contractors. apply filter_In. split; [exact Hct|]. unfold contractor_enabled.
        destruct (sp_contractors (spec n)) as [|y l] eqn:El; [reflexivity|].
        destruct Hen as [Hen|Hen]; [discriminate|]. apply existsb_exists. exists (ct_id ct). split; [exact Hen|apply Nat.eqb_refl]. }
      destruct (jsite_runner_ok B sd s x occ n c ct Hi HB HZ Hb Hf Hc Hinf) as (st & ft & tm & R & R').
      destruct R' as [[Hnone _]|(t & -> & Hw & Hed & R1 & R2 & _)]; [apply (borders_able' cs); assumption|].
      exfalso. destruct (contractor_search_exists _ _ HRg cs (spec n) HR) as [r Hr]; [|congruence].
      exists ct, st, ft, (to_workers t). split; [exact Hf|]. split; [exact R|]. unfold is_inf. inf. lia.
    - eapply contractor_search_not_crash; eauto.
  Qed.

  Lemma jsite_loop_safe : forall nodes is_first chains rest sd s x occ h,
    jtinv g p (staffed g cs spec) chains sd s h ->
    (is_first = true -> sd = [] /\ s = jit_init p /\ forall n, hd_error nodes = Some n -> zones n = []) -> (is_first = false -> sd <> []) ->
    jbelow (apt + Z.of_nat (length (concat chains)) * (D + Lg + 1)) sd s ->
    zbelow (apt + Z.of_nat (length (concat chains)) * (D + Lg + 1)) sd x occ ->
    chains_of g nodes = Some rest -> (forall n, In n nodes -> inseparable_parent g n = None) ->
    2 * (apt + Z.of_nat (length (concat (chains ++ rest))) * (D + Lg + 1)) < TIME_INF ->
    NoDup (concat (chains ++ rest)) ->
    match loop is_first apt nodes sd (s, x) with
    | Crash => False
    | NoContractor => exists n, In n nodes /\
         forall ct, In ct cs -> (sp_contractors (spec n) = [] \/ In (ct_id ct) (sp_contractors (spec n))) ->
                    ~ able ct (reqs_of g n)
    | Done (sd', _) => forall m w, In (m, w) sd' -> sw_finish w <= apt + Z.of_nat (length (concat (chains ++ rest))) * (D + Lg + 1)
    end.
  Proof.
    induction nodes as [|n nodes IH]; intros is_first chains rest sd s x occ h HI Hf Hnf HB HZ Hch Hpar Hinf Hnd.
    { simpl in Hch. injection Hch as <-. rewrite app_nil_r. exact (proj1 HB). }
    cbn [chains_of] in Hch. destruct (chain_of g n) as [c|] eqn:Ec; [|discriminate].
    destruct (chains_of g nodes) as [rest'|] eqn:Er; [|discriminate]. injection Hch as <-.
    unfold loop. cbn [build_loop]. fold loop. fold step.
    assert (Eapp : chains ++ c :: rest' = (chains ++ [c]) ++ rest') by (rewrite <- app_assoc; reflexivity).
    rewrite Eapp in *.
    assert (Hlc : (1 <= length c)%nat) by (destruct (chain_head _ _ _ Ec) as [r ->]; simpl; lia).
    assert (Hcat : length (concat (chains ++ [c])) = (length (concat chains) + length c)%nat).
    { rewrite concat_app, app_length. simpl. rewrite app_nil_r. reflexivity. }
    set (is_last := match nodes with [] => true | _ => false end).
    assert (Hle : Z.of_nat (length (concat (chains ++ [c]))) <= Z.of_nat (length (concat ((chains ++ [c]) ++ rest')))).
    { rewrite (concat_app (chains ++ [c])), app_length. lia. }
    assert (HD0 := proj1 HD). assert (HL0 := proj1 HL).
    rewrite concat_app in Hnd.
    assert (Hnd1 := nodup_app_l _ _ Hnd).
    assert (Hdis : forall m w, In m c -> In (m, w) sd -> False).
    { intros m w Hm Hin. apply in_sd_key in Hin. rewrite (j_keys _ _ _ _ _ _ _ HI) in Hin. apply in_rev in Hin.
      rewrite concat_app in Hnd1. simpl in Hnd1. rewrite app_nil_r in Hnd1. eapply nodup_app_disj; eauto. }
    assert (Hs := jsite_step_safe (apt + Z.of_nat (length (concat chains)) * (D + Lg + 1)) is_first is_last sd s x occ n c
      (j_inv _ _ _ _ _ _ _ HI) HB HZ ltac:(nia) (fun E => proj2 (proj2 (Hf E)) n eq_refl) Hnf Hdis (Hpar n (or_introl eq_refl)) Ec ltac:(rewrite Hcat in Hle; nia)).
    destruct (step is_first is_last apt n sd (s, x)) as [[sd1 [s1 x1]]| |] eqn:Es.
    - assert (Hf' : is_first = true -> sd = [] /\ s = jit_init p) by (intros E; destruct (Hf E) as (F1 & F2 & _); auto).
      assert (HI1 := jsite_step_inv g est land mtime deliv ztime occup lmat ldel lzone Hest p Hvol optimize cs spec apt eq_refl Hcs Hopt Hreqs Hspec Hfit Hapt
        _ _ _ _ _ _ _ _ _ _ _ _ HI Hf' Hnf Ec Hnd1 Es).
      destruct HI1 as [Hne [h1 HI1]]. destruct Hs as [HB1 [occ1 HZ1]].
      assert (Ebound : apt + Z.of_nat (length (concat chains)) * (D + Lg + 1) + 1 + Z.of_nat (length c) * (D + Lg)
                       <= apt + Z.of_nat (length (concat (chains ++ [c]))) * (D + Lg + 1)) by (rewrite Hcat; nia).
      rewrite <- concat_app in Hnd.
      assert (R := IH false (chains ++ [c]) rest' sd1 s1 x1 occ1 h1 HI1 ltac:(discriminate) ltac:(auto)).
      match type of R with ?A -> ?B -> _ => assert (HA : A); [|assert (HB' : B)] end.
      { destruct HB1 as [Q1 Q2]. split; [intros m w Hin; apply Q1 in Hin; lia|intros a q y Ha Hy; specialize (Q2 a q y Ha Hy); lia]. }
      { destruct HZ1 as [Q1 Q2]. split; [eapply winv_mono; [exact Ebound|exact Q1]|exact Q2]. }
      specialize (R HA HB' eq_refl (fun m Hm => Hpar m (or_intror Hm)) Hinf Hnd).
      destruct (loop false apt nodes sd1 (s1, x1)) as [[sd2 sx2]| |]; [exact R| |exact R].
      destruct R as (m & Hm & R). exists m. split; [right; exact Hm|exact R].
    - exists n. split; [left; reflexivity|exact Hs].
    - exact Hs.
  Qed.
End Safe.
