(** The list scheduler on a site with zones and no materials does not crash. *)
From Coq Require Import ZArith List Bool Lia Arith.
From Coq Require Import ZifyBool ZifyNat.
From Verif Require Import TimeModel MomentumModel MomentumSpec MomentumHistory MomentumTeamProofs
  GraphModel ScheduleModel ScheduleSpec ContractorProofs ContractorTheorems TeamProofs ScheduleProofs
  SchedulePoolProofs ScheduleInv ScheduleSafe ZoneModel ZoneProofs ZoneTheorems SiteModel SiteProofs SiteZoneProofs.
From Verif Require SupplyModel.
Import ListNotations.
Local Open Scope Z_scope.

Lemma zone_none cost tl parent exec : find_min_zone_time cost tl [] parent exec = Some parent.
Proof. reflexivity. Qed.

Section Moves.
  Variables (g : graph) (est : nat -> list worker -> Z) (p : pool) (apt D Lg : Z).
  Variable route : Z -> nat -> nat -> list nat.
  Variable overcome : nat -> Z.
  Variable holders : nat -> list SupplyModel.depot.
  Variable storage : nat -> nat -> Z.
  Variable platform : nat -> nat.
  Variable needs : nat -> SupplyModel.request.
  Variable cost : nat -> nat -> Z.
  Variable zones : nat -> list zreq.
  Variable start : nat -> option nat.
  Hypothesis Hest : estimator_ok est.
  Hypothesis Hreqs : forall n, reqs_ok (reqs_of g n).
  Hypothesis Hapt : 0 <= apt <= TIME_INF.
  Hypothesis HD : 0 <= D /\ True.
  Hypothesis HL : 0 <= Lg /\ forall e, In e (g_edges g) -> e_lag e <= Lg.
  Hypothesis Hservice : forall n, u_service (g_unit g n) = true -> reqs_of g n = [].
  Hypothesis Hshare : forall n c m, chain_of g n = Some c -> In m c ->
    map r_kind (reqs_of g m) = map r_kind (reqs_of g n).
  Hypothesis Hneeds : forall n, needs n = [].
  Hypothesis cost0 : forall s q, s <> q -> cost s q = 0.
  Hypothesis Hzones : forall n, NoDup (map fst (zones n)) /\ forall r, In r (zones n) -> start (fst r) <> None.
  Hypothesis Hworkers : forall n, reqs_of g n = [] -> zones n = [].

  Let mtime := land_material_time route overcome holders storage platform needs.
  Let deliv := land_deliver route overcome holders storage platform needs.
  Let ztime := land_zone_time cost zones.
  Let occup := land_occupy cost zones.

  Lemma no_material x n t : - TIME_INF <= t <= TIME_INF -> mtime x n t = Some t.
  Proof. intros H. unfold mtime, land_material_time. rewrite Hneeds. cbn. rewrite set_time_in by exact H. reflexivity. Qed.

  (** What holds of the zones: [occ] are the occupations, which end by [B]. *)
  Definition zbelow (B : Z) (sd : sched) (x : land) (occ : list occupation) : Prop :=
    winv start (snd x) occ B /\ forall o, In o occ -> oc_work o <= Z.of_nat (length sd).
  Local Notation below := (mv_below apt).
  Local Notation team_good := (mv_team_good g est p D).
  Local Notation cfin := (mv_cfin g est apt).

  Lemma empty_team id n t : team_good id n t -> to_workers t = [] -> zones n = [].
  Proof.
    intros (_ & counts & Et & Hl & _) E. apply Hworkers. destruct t; [|discriminate].
    destruct (reqs_of g n) as [|r rs]; [reflexivity|]. destruct counts; [discriminate|]. discriminate.
  Qed.

  Lemma site_find_ok B sd s x occ h id n t c ind : minv p h s -> below B sd s -> zbelow B sd x occ -> team_good id n t ->
    chain_of g n = Some c -> 2 * (B + 1 + Lg) + Z.of_nat (length c) * D < TIME_INF ->
    exists st ft times, site_find g est land mtime ztime sd (s, x) n (to_workers t) ind None apt = Some (st, ft, times) /\
      parent_bound g sd None apt n <= st <= B + 1 + Lg /\ 0 <= ft <= 2 * (B + 1 + Lg) + Z.of_nat (length c) * D - apt /\
      (t = [] \/ team_fits p h t st (cfin sd (to_workers t) (parent_bound g sd None apt n) c - parent_bound g sd None apt n)) /\
      (forall r, In r (zones n) -> zone_ok (snd x) occ st (cfin sd (to_workers t) (parent_bound g sd None apt n) c - parent_bound g sd None apt n) r).
  Proof.
    intros Hm HB [HW HI] Hgood Hc Hinf. assert (Hempty := empty_team _ _ _ Hgood).
    destruct Hgood as (Hed & counts & Et & Hlen & Htok & Hcap). specialize (Hed c Hc). assert (HB0 : apt <= B) by exact (proj1 HB). assert (HL0 := proj1 HL).
    assert (HD0 := proj1 HD).
    assert (HU : B + Lg <= TIME_INF) by nia.
    destruct (mv_bound_le g apt Lg Hreqs Hapt HL Hservice Hshare B sd s n HB HU) as [Hb1 Hb2].
    unfold site_find. rewrite Hc.
    set (base := parent_bound g sd None apt n) in *.
    destruct (chain_exec g est (parent_bound g sd None apt) base (to_workers t) 0 c) as [exec tms] eqn:Ec.
    assert (Hcf := mv_cfin_le g est apt D Lg Hest Hreqs Hapt HD HL Hservice Hshare B sd s (to_workers t) base c Hed HB HU ltac:(lia)).
    assert (Hex : base + exec = cfin sd (to_workers t) base c).
    { unfold mv_cfin. rewrite (chain_exec_exact g est (to_workers t) Hest (parent_bound g sd None apt) base) with (chain := c) (exec := 0) (times := tms).
      - replace (base + 0) with base by lia. reflexivity.
      - intros m. destruct (mv_bound_le g apt Lg Hreqs Hapt HL Hservice Hshare B sd s m HB HU). inf. lia.
      - lia.
      - inf; lia.
      - exact Ec.
      - replace (base + 0) with base by lia. unfold mv_cfin, mv_nt in Hcf. nia. }
    replace (cfin sd (to_workers t) base c - base) with exec in * by lia.
    destruct (to_workers t) as [|w tw] eqn:Etw.
    - assert (Hz0 : zones n = []) by (apply Hempty; reflexivity).
      rewrite no_material by (inf; lia). unfold ztime, land_zone_time. rewrite Hz0, zone_none. cbn [option_map].
      rewrite set_time_in by (inf; lia). exists base, base, tms.
      replace (tmax (tmax base base) base) with base by (rewrite !tmax_spec; lia).
      split; [reflexivity|]. split; [lia|]. split; [nia|]. split; [left; destruct t; [reflexivity|discriminate]|intros r []].
    - assert (Hw : w_contractor w = id).
      { subst t. unfold team_of_contractor, to_workers in Etw. rewrite map_map in Etw.
        destruct (combine _ _); [discriminate|]. simpl in Etw. injection Etw as <- _. reflexivity. }
      rewrite Hw, <- Etw.
      assert (Hkt : map fst (combine (map r_kind (reqs_of g n)) counts) = map r_kind (reqs_of g n)).
      { apply map_fst_combine. rewrite map_length. exact Hlen. }
      destruct (Hzones n) as [Znd Zst].
      set (U := B + 1 + Lg).
      set (workers := fun cur => find_min_start_time (m_tl s) id (chain_kinds g c) ind cur exec (to_workers t)).
      assert (Hworker : forall cur, base <= cur <= U -> exists r, workers cur = Some r /\ cur <= r <= U /\ team_fits p h t r exec).
      { intros cur Hcur.
        destruct (find_min_start_any p h s id (combine (map r_kind (reqs_of g n)) counts) exec Hm) with
          (ind := ind) (chain := chain_kinds g c) (pt := cur) as (r & R1 & R2 & R3 & R4).
        + rewrite Hkt. apply Hreqs.
        + lia.
        + exact Hcap.
        + lia.
        + destruct (chain_head _ _ _ Hc) as [r ->]. discriminate.
        + intros y Hy. unfold chain_kinds in Hy. apply in_map_iff in Hy as (m & <- & Hm'). simpl.
          rewrite Hkt. eapply Hshare; eauto.
        + destruct (chain_head _ _ _ Hc) as [r ->]. simpl.
          destruct (u_service (g_unit g n)) eqn:Eu; [|reflexivity]. apply Hservice in Eu.
          exfalso. subst t. rewrite Eu in Etw. simpl in Etw. discriminate.
        + rewrite <- Et in R1, R3. exists r. split; [exact R1|]. split; [|exact R3]. split; [exact R2|].
          destruct R4 as [->|R4]; [lia|]. destruct HB as (_ & _ & HB'). apply HB' in R4. unfold U. lia. }
      assert (Hround : forall cur, base <= cur <= U ->
        match agree land mtime ztime x n exec workers cur with
        | inl a' => base <= a' <= U /\ cur < a'
        | inr o => exists r, o = Some r /\ base <= r <= U /\ team_fits p h t r exec /\ forall q, In q (zones n) -> zone_ok (snd x) occ r exec q
        end).
      { intros cur Hcur. destruct (Hworker cur Hcur) as (r & R1 & R2 & R3). unfold agree. rewrite R1.
        rewrite no_material by (inf; unfold U in *; nia). unfold tlt. rewrite Z.ltb_irrefl.
        destruct (find_ok cost cost0 start (snd x) occ B (zones n) r exec HW Znd Zst ltac:(lia) ltac:(lia) ltac:(unfold U in *; nia)) as (zt & Ezt & Hzt & Hok).
        unfold ztime, land_zone_time. rewrite Ezt. cbn [option_map]. rewrite set_time_in by (inf; unfold U in *; nia).
        destruct (Z.ltb_spec r zt).
        - split; [unfold U in *; lia|lia].
        - assert (zt = r) by lia. subst zt. exists r. auto with zarith. }
      assert (Hend := repeat_until_ends (fun cur => base <= cur <= U) (fun cur => U - cur) (agree land mtime ztime x n exec workers)
                ltac:(intros ? ?; cbv beta in *; lia)).
      assert (Hinv := repeat_until_inv (fun cur => base <= cur <= U)
                (fun o => exists r, o = Some r /\ base <= r <= U /\ team_fits p h t r exec /\ forall q, In q (zones n) -> zone_ok (snd x) occ r exec q)
                (agree land mtime ztime x n exec workers)).
      match type of Hend with ?A -> _ => assert (Hs : A) end.
      { intros cur Hcur. specialize (Hround cur Hcur). destruct (agree _ _ _ _ _ _ _ _); [split; lia|exact I]. }
      specialize (Hend Hs search_bound base ltac:(unfold U; lia)). clear Hs.
      match type of Hinv with ?A -> _ => assert (Hs : A) end.
      { intros cur Hcur. specialize (Hround cur Hcur). destruct (agree _ _ _ _ _ _ _ _); [apply Hround|exact Hround]. }
      specialize (Hinv Hs search_bound base ltac:(unfold U; lia)). clear Hs.
      assert (Eb : Zpos search_bound = TIME_INF + 2) by reflexivity.
      destruct (repeat_until search_bound (agree land mtime ztime x n exec workers) base) as [a|o].
      { exfalso. destruct Hend as [H1 H2]. unfold U in *. lia. }
      destruct Hinv as (r & -> & Hr & Hf & Hz).
      assert (Hfin : r + exec <= 2 * (B + 1 + Lg) + Z.of_nat (length c) * D - apt) by (unfold U in *; lia).
      rewrite (validate_fits p h s t r exec Hm); [|lia|lia|lia|exact Hf].
      exists r, (tadd r exec), tms. rewrite tadd_exact by lia.
      split; [reflexivity|]. split; [exact Hr|]. split; [lia|]. split; [right; exact Hf|exact Hz].
  Qed.

  Lemma site_schedule_ok B sd s x occ h id n t c sp st : minv p h s -> m_index s < TIME_INF -> below B sd s -> zbelow B sd x occ -> team_good id n t ->
    chain_of g n = Some c -> 2 * (B + 1 + Lg) + Z.of_nat (length c) * D < TIME_INF -> sp_time sp = None ->
    parent_bound g sd None apt n <= st <= B + 1 + Lg ->
    (t = [] \/ team_fits p h t st (cfin sd (to_workers t) (parent_bound g sd None apt n) c - parent_bound g sd None apt n)) ->
    (forall r, In r (zones n) -> zone_ok (snd x) occ st (cfin sd (to_workers t) (parent_bound g sd None apt n) c - parent_bound g sd None apt n) r) ->
    exists sd' s' x' occ', site_schedule g est land mtime deliv ztime occup sd (s, x) n (to_workers t) id sp (Some st) apt = Some (sd', (s', x')) /\
      below (B + 1 + Lg + Z.of_nat (length c) * D) sd' s' /\ zbelow (B + 1 + Lg + Z.of_nat (length c) * D) sd' x' occ'.
  Proof.
    intros Hm Hidx HB0 [HW HI] Hgood Hc Hinf Hsp Hst Hfits Hzok.
    assert (HB : below (B + 1) sd s).
    { destruct HB0 as (H1 & H2 & H3). split; [lia|]. split; [intros m w Hin; apply H2 in Hin; lia|intros y Hy; apply H3 in Hy; lia]. }
    destruct (mv_schedule_ok g est p apt D Lg Hest Hreqs Hapt HD HL Hservice Hshare (B + 1) sd s h id n t c sp st Hm Hidx HB Hgood Hc Hinf Hsp Hst Hfits)
      as (sd' & s' & Hms & HB').
    assert (Hempty := empty_team _ _ _ Hgood). destruct Hgood as (Hed & _). specialize (Hed c Hc).
    assert (HL0 := proj1 HL). assert (HD0 := proj1 HD). assert (Hb0 : apt <= B + 1) by exact (proj1 HB).
    assert (HU : B + 1 + Lg <= TIME_INF) by nia.
    destruct (mv_bound_le g apt Lg Hreqs Hapt HL Hservice Hshare (B + 1) sd s n HB HU) as [Hb1 _].
    assert (Hcf := mv_cfin_le g est apt D Lg Hest Hreqs Hapt HD HL Hservice Hshare (B + 1) sd s (to_workers t) (parent_bound g sd None apt n) c Hed HB HU ltac:(lia)).
    unfold momentum_schedule in Hms. rewrite Hc, Hsp in Hms.
    destruct (momentum_find g est sd s n (to_workers t) (sp_independent sp) (Some st) apt) as [[[st1 ft] tms]|] eqn:Ef; [|discriminate].
    assert (Hpb : parent_bound g sd (Some st) apt n = st).
    { unfold parent_bound in *. rewrite !tmax_spec in *. lia. }
    assert (Hsf : site_find g est land mtime ztime sd (s, x) n (to_workers t) (sp_independent sp) (Some st) apt = Some (st1, ft, tms) /\ st1 = st /\
                  exists exec, chain_exec g est (parent_bound g sd (Some st) apt) st (to_workers t) 0 c = (exec, tms)).
    { unfold momentum_find in Ef. unfold site_find. rewrite Hc, Hpb in *.
      destruct (chain_exec g est (parent_bound g sd (Some st) apt) st (to_workers t) 0 c) as [exec tms0].
      destruct (to_workers t) as [|w tw].
      - rewrite no_material by (inf; lia). unfold ztime, land_zone_time. rewrite (Hempty eq_refl), zone_none. cbn [option_map].
        rewrite set_time_in by (inf; lia). replace (tmax (tmax st st) st) with st by (rewrite !tmax_spec; lia).
        injection Ef as <- <- <-. eauto.
      - destruct (validate _ _ _ _); [|discriminate]. injection Ef as <- <- <-. eauto. }
    destruct Hsf as (Hsf & -> & exec & Ec).
    destruct (place_chain (to_workers t) id st c tms sd) as [fin sd1] eqn:Ep.
    destruct (update_timeline fin (tsub fin st) (to_workers t) s) as [s1|] eqn:Eu; [|discriminate]. injection Hms as -> ->.
    unfold site_schedule. rewrite Hc, Hsf, Hsp.
    rewrite (place_nothing route overcome holders storage platform needs cost zones start) by (intros m _; apply Hneeds).
    rewrite Ep. cbn [fst snd]. rewrite Eu.
    (* how long it takes *)
    assert (Hbr' : forall m, - TIME_INF <= parent_bound g sd (Some st) apt m <= TIME_INF).
    { intros m. destruct (parent_bound_range g sd (Some st) apt m Hapt ltac:(simpl; lia)). inf. lia. }
    assert (Hbr : forall m, - TIME_INF <= parent_bound g sd None apt m <= TIME_INF).
    { intros m. destruct (parent_bound_range g sd None apt m Hapt I). inf. lia. }
    destruct (chain_exec g est (parent_bound g sd None apt) (parent_bound g sd None apt n) (to_workers t) 0 c) as [exec0 tms0] eqn:Ec0.
    assert (Hx0 : parent_bound g sd None apt n + exec0 = cfin sd (to_workers t) (parent_bound g sd None apt n) c).
    { unfold mv_cfin. rewrite (chain_exec_exact g est (to_workers t) Hest (parent_bound g sd None apt) (parent_bound g sd None apt n) Hbr ltac:(lia) c 0 exec0 tms0 ltac:(inf; lia) Ec0).
      - rewrite Z.add_0_r. reflexivity.
      - rewrite Z.add_0_r. unfold mv_cfin, mv_nt in Hcf. nia. }
    replace (cfin sd (to_workers t) (parent_bound g sd None apt n) c - parent_bound g sd None apt n) with exec0 in * by lia.
    assert (Hsh := shifted_exec g est sd apt (to_workers t) c n st exec0 tms0 exec tms Hest Hapt ltac:(lia) Ec0 Ec ltac:(nia)).
    destruct (chain_place_bound g est (to_workers t) Hest (parent_bound g sd (Some st) apt) st Hbr' ltac:(lia)
      c 0 exec tms id st sd fin sd' ltac:(inf; lia) Ec ltac:(lia) Ep) as [Hfin _].
    assert (Hfin' : fin = st + exec) by nia.
    destruct (chain_exec_shape g est (to_workers t) Hest (parent_bound g sd (Some st) apt) st c 0 exec tms ltac:(inf; lia) Ec) as (L1 & L2 & L3 & _).
    assert (HstI : st <= TIME_INF) by lia.
    destruct (place_shape _ _ _ _ _ _ _ _ L1 L2 HstI Ep) as (new & N1 & N2 & N3).
    assert (Hne : new <> []). { destruct (chain_head _ _ _ Hc) as [r Er]. rewrite Er in N2. destruct new; discriminate. }
    destruct (consecutive_last _ _ _ _ _ N3 Hne) as (m0 & w0 & Hin0 & Ew0).
    assert (HfB : fin <= B + 1 + Lg + Z.of_nat (length c) * D).
    { rewrite <- Ew0. destruct HB' as (_ & HB1 & _). apply (HB1 m0 w0). rewrite N1. apply in_or_app. left. rewrite <- in_rev. exact Hin0. }
    destruct (Hzones n) as [Znd Zst].
    destruct (update_ok cost cost0 start (Z.of_nat (length sd')) st exec (B + 1 + Lg + Z.of_nat (length c) * D) ltac:(lia) ltac:(lia) ltac:(lia) ltac:(lia) ltac:(nia)
                (zones n) (snd x) occ) as (tl' & ts & Eup & W').
    - eapply winv_mono; [|exact HW]. nia.
    - exact Znd.
    - intros r Hr. split; [eapply zone_ok_shorter; [|apply Hzok; exact Hr]; lia|]. split; [apply Zst, Hr|].
      intros o Ho _. specialize (HI o Ho). assert (length sd < length sd')%nat; [|lia].
      rewrite N1, app_length, rev_length. destruct new; [congruence|]. simpl. lia.
    - unfold occup, land_occupy. rewrite tsub_exact by nia. replace (fin - st) with exec by lia. rewrite Eup.
      eexists sd', s', _, _. split; [reflexivity|]. split; [exact HB'|]. split; [exact W'|].
      intros o Ho. apply in_app_or in Ho as [Ho|Ho].
      + specialize (HI o Ho). rewrite N1, app_length. lia.
      + apply in_map_iff in Ho as (zr & <- & _). cbn. lia.
  Qed.
End Moves.

Section Safe.
  Variables (g : graph) (est : nat -> list worker -> Z)
    (optimize : nat -> nat -> sched -> mstate * land -> list border -> option (list bool) -> list Z -> option (list Z))
    (cs : list contractor) (spec : nat -> work_spec) (apt D Lg : Z).
  Variable route : Z -> nat -> nat -> list nat.
  Variable overcome : nat -> Z.
  Variable holders : nat -> list SupplyModel.depot.
  Variable storage : nat -> nat -> Z.
  Variable platform : nat -> nat.
  Variable needs : nat -> SupplyModel.request.
  Variable cost : nat -> nat -> Z.
  Variable zones : nat -> list zreq.
  Variable start : nat -> option nat.
  Let mtime := land_material_time route overcome holders storage platform needs.
  Let deliv := land_deliver route overcome holders storage platform needs.
  Let ztime := land_zone_time cost zones.
  Let occup := land_occupy cost zones.
  Let lmat := land_mat route overcome holders storage platform needs.
  Let ldel := land_del route overcome holders storage platform needs.
  Let lzone := land_zone cost zones.
  Hypothesis Hcs : contractors_ok cs.
  Hypothesis Hest : estimator_ok est.
  Hypothesis Hopt : forall n c sd s, optimizer_ok (optimize n c sd s).
  Hypothesis Hans : optimizer_answers (site_times g est land mtime ztime) optimize (reqs_of g) cs spec apt.
  Hypothesis Hreqs : forall n, reqs_ok (reqs_of g n).
  Hypothesis Hspec : forall n, spec_ok (spec n).
  Hypothesis Hapt : 0 <= apt <= TIME_INF.
  Hypothesis Hvol : forall n, 0 <= volume_of g n.
  Hypothesis HD : 0 <= D /\ estimates_bounded g est cs spec D.
  Hypothesis HL : 0 <= Lg /\ forall e, In e (g_edges g) -> e_lag e <= Lg.
  Hypothesis Hnotime : forall n, sp_time (spec n) = None.
  Hypothesis Hfit : forall n, spec_fits cs (reqs_of g n) (spec n).
  Hypothesis Hservice : forall n, u_service (g_unit g n) = true -> reqs_of g n = [].
  Hypothesis Hshare : forall n c m, chain_of g n = Some c -> In m c ->
    map r_kind (reqs_of g m) = map r_kind (reqs_of g n).
  Hypothesis Hneeds : forall n, needs n = [].
  Hypothesis cost0 : forall s q, s <> q -> cost s q = 0.
  Hypothesis Hzones : forall n, NoDup (map fst (zones n)) /\ forall r, In r (zones n) -> start (fst r) <> None.
  Hypothesis Hworkers : forall n, reqs_of g n = [] -> zones n = [].

  Let sfind := site_times g est land mtime ztime.
  Let sched1 := site_schedule g est land mtime deliv ztime occup.
  Let step := build_step (mstate * land) sfind sched1 (reqs_of g) optimize cs spec.
  Let loop := build_loop (mstate * land) sfind sched1 (reqs_of g) optimize cs spec.
  Let p := pool_of cs.
  Let HDt : 0 <= D /\ True := conj (proj1 HD) I.
  Local Notation below := (mv_below apt).
  Local Notation team_good := (mv_team_good g est p D).
  Local Notation cfin := (mv_cfin g est apt).
  Local Notation zbelow := (zbelow start).

  Lemma site_runner_ok B sd s x occ h n c ct : minv p h s -> below B sd s -> zbelow B sd x occ -> In ct (filter_contractors (spec n) cs) ->
    chain_of g n = Some c -> 2 * (B + 1 + Lg) + Z.of_nat (length c) * D < TIME_INF ->
    exists st ft tm, run_with_contractor (mstate * land) sfind (reqs_of g) optimize cs spec sd (s, x) n apt ct = Done (st, ft, tm) /\ ((get_worker_borders p (ct_id ct) (reqs_of g n) = None /\ ft = TIME_INF) \/
       exists t, tm = to_workers t /\ team_good (ct_id ct) n t /\
         parent_bound g sd None apt n <= st <= B + 1 + Lg /\ 0 <= ft <= 2 * (B + 1 + Lg) + Z.of_nat (length c) * D - apt /\
         (t = [] \/ team_fits p h t st (cfin sd (to_workers t) (parent_bound g sd None apt n) c - parent_bound g sd None apt n)) /\
         (forall r, In r (zones n) -> zone_ok (snd x) occ st (cfin sd (to_workers t) (parent_bound g sd None apt n) c - parent_bound g sd None apt n) r)).
  Proof.
    intros Hm HB HZ Hct Hc Hinf. apply enabled_cases in Hct as [Hct Hen].
    unfold run_with_contractor. fold p. destruct (get_worker_borders p (ct_id ct) (reqs_of g n)) as [bs|] eqn:Eb.
    2: { do 3 eexists. split; [reflexivity|]. left. split; reflexivity. }
    destruct (optimize_using_spec _ _ _ _) as [counts|] eqn:Eo.
    2: { exfalso. revert Eo.
         apply (spec_total g est (fun _ _ _ _ => min_optimizer) cs spec Lg (fun _ _ _ _ => min_optimizer_ok) Hreqs Hspec Hvol Hnotime Hfit Hservice Hshare) with (ct := ct);
           [exact Hct|exact Eb|]. intros Hne.
         apply (Hans n (ct_id ct) sd (s, x) bs Eb Hne). intros counts Hw.
         assert (HC : Forall2 (count_ok [] false) bs counts) by (unfold count_ok; exact Hw).
         destruct (counted_team p (reqs_of g n) [] false (ct_id ct) bs counts (Hreqs n) ltac:(intros k m []) Eb HC) as (t & T1 & T2 & T3 & T4 & T5).
         unfold team_of_counts. set (tm := map (fun kc => Wk _ _ _) _) in *.
         assert (Hgood : team_good (ct_id ct) n t).
         { split.
           { intros c' Hc' m Hm'. rewrite <- T1. eapply (proj2 HD); [exact Hc'|exact Hm'|exact Hct|].
             apply (team_for_of p ct (spec n) [] false); [intros k y []|exact T5]. }
           exists (map w_count tm). split; [exact T3|]. split; [exact T4|]. split; [exact T2|].
           intros k m Hin. clear -T5 Hin. revert T5 Hin.
           generalize tm. induction (reqs_of g n) as [|r rs IH]; intros tm0 T5 Hin; [destruct Hin|].
           inversion T5 as [|? w ? tm1 (W1 & W2 & W3 & cap & W4 & W5) T5']; subst. simpl in Hin.
           destruct Hin as [[= <- <-]|Hin]; [|eapply IH; eauto].
           exists cap. split; [exact W4|]. cbn in W5. lia. }
         destruct (site_find_ok g est p apt D Lg route overcome holders storage platform needs cost zones start Hest Hreqs Hapt HDt HL Hservice Hshare Hneeds cost0 Hzones Hworkers
           B sd s x occ h (ct_id ct) n t c (sp_independent (spec n)) Hm HB HZ Hgood Hc Hinf) as (st & ft & times & F1 & _).
         unfold site_times. rewrite T1. unfold mtime, ztime. rewrite F1. discriminate. }
    destruct (chosen_team _ _ _ _ _ _ _ (Hopt n (ct_id ct) sd (s, x)) (Hreqs n) (proj1 (Hspec n)) Eb Eo) as (t & T1 & T2 & T3 & T4 & T5).
    set (tm := map (fun kc => Wk _ _ _) _) in *.
    assert (Hgood : team_good (ct_id ct) n t).
    { split.
      { intros c' Hc' m Hm'. rewrite <- T1. eapply (proj2 HD); [exact Hc'|exact Hm'|exact Hct|].
        eapply team_for_of; [|exact T5]. auto. }
      exists (map w_count tm). split; [exact T3|]. split; [exact T4|]. split; [exact T2|].
      intros k m Hin. clear -T5 Hin Hct Hen Hfit Hcs. destruct (Hfit n) as [Hf _].
      fold p in T5. revert T5 Hin. generalize (Nat.eqb (length (sp_workers (spec n))) (length (reqs_of g n))) as full.
      generalize tm. induction (reqs_of g n) as [|r rs IH]; intros tm0 full T5 Hin; [destruct Hin|].
      inversion T5 as [|? w ? tm1 (W1 & W2 & W3 & cap & W4 & W5) T5']; subst. simpl in Hin.
      destruct Hin as [[= <- <-]|Hin]; [|eapply IH; eauto].
      exists cap. split; [exact W4|]. unfold count_ok in W5. simpl in W5.
      destruct (assoc_get (sp_workers (spec n)) (r_kind r)) as [y|] eqn:Ea; [|lia].
      destruct (_ || _); [|lia]. subst y. apply assoc_get_in in Ea.
      destruct (capacity_pool_inv _ _ _ _ W4) as (ct' & C1 & C2 & C3).
      eapply Hf; [exact C1| |exact Ea|exact C3]. rewrite C2. exact Hen. }
    destruct (site_find_ok g est p apt D Lg route overcome holders storage platform needs cost zones start Hest Hreqs Hapt HDt HL Hservice Hshare Hneeds cost0 Hzones Hworkers
      B sd s x occ h (ct_id ct) n t c (sp_independent (spec n)) Hm HB HZ Hgood Hc Hinf) as (st & ft & times & F1 & F2 & F3 & F4 & F5).
    unfold sfind, site_times. rewrite T1. unfold mtime, ztime. rewrite F1. do 3 eexists. split; [reflexivity|]. right. exists t. auto 8.
  Qed.

  Lemma site_step_safe B is_first is_last sd s x occ h n c : minv p h s -> m_index s < TIME_INF -> below B sd s -> zbelow B sd x occ ->
    (is_first = true -> sd = [] /\ h = [] /\ zones n = []) ->
    chain_of g n = Some c -> 2 * (B + 1 + Lg) + Z.of_nat (length c) * D < TIME_INF ->
    match step is_first is_last apt n sd (s, x) with
    | Crash => False
    | NoContractor => forall ct, In ct cs -> (sp_contractors (spec n) = [] \/ In (ct_id ct) (sp_contractors (spec n))) ->
                        ~ able ct (reqs_of g n)
    | Done (sd', (s', x')) => below (B + 1 + Lg + Z.of_nat (length c) * D) sd' s' /\
                              exists occ', zbelow (B + 1 + Lg + Z.of_nat (length c) * D) sd' x' occ'
    end.
  Proof.
    intros Hm Hidx HB HZ Hfirst Hc Hinf.
    assert (HR : forall ct, In ct (filter_contractors (spec n) cs) -> exists r,
              run_with_contractor (mstate * land) sfind (reqs_of g) optimize cs spec sd (s, x) n apt ct = Done r).
    { intros ct Hct. destruct (site_runner_ok B sd s x occ h n c ct Hm HB HZ Hct Hc Hinf) as (st & ft & tm & R & _). eauto. }
    assert (HRg : forall c0 st0 ft0 tm0, run_with_contractor (mstate * land) sfind (reqs_of g) optimize cs spec sd (s, x) n apt c0 = Done (st0, ft0, tm0) ->
              - TIME_INF <= ft0 <= TIME_INF).
    { intros c0 st0 ft0 tm0. apply (site_runner_range g est land mtime deliv ztime occup lmat ldel lzone optimize cs spec apt Hapt). }
    assert (HB0 : apt <= B) by exact (proj1 HB). assert (HL0 := proj1 HL). assert (HD0 := proj1 HD).
    unfold step, build_step.
    destruct (run_contractor_search _ cs (spec n)) as [[[[st ft] ct] team]| |] eqn:Es.
    - apply contractor_search_best in Es; [|exact HRg]. destruct Es as (Ein & Er & Eft & _).
      destruct (site_runner_ok B sd s x occ h n c ct Hm HB HZ Ein Hc Hinf) as (st' & ft' & tm' & R & R').
      rewrite R in Er. injection Er as -> -> ->.
      destruct R' as [[_ ->]|(t & -> & Hg & R1 & R2 & R3 & R4)]; [discriminate|].
      set (st1 := if is_first then apt else st).
      assert (H1 : parent_bound g sd None apt n <= st1 <= B + 1 + Lg /\
        (t = [] \/ team_fits p h t st1 (cfin sd (to_workers t) (parent_bound g sd None apt n) c - parent_bound g sd None apt n)) /\
        (forall r, In r (zones n) -> zone_ok (snd x) occ st1 (cfin sd (to_workers t) (parent_bound g sd None apt n) c - parent_bound g sd None apt n) r)).
      { unfold st1. destruct is_first; [|auto]. destruct (Hfirst eq_refl) as (-> & -> & ->). split; [|split; [|intros r []]].
        - unfold parent_bound. rewrite min_start_nil, tmax_spec. lia.
        - right. intros a m Hin. destruct Hg as (_ & counts & Et & _ & _ & Hcap). rewrite Et in Hin.
          apply in_map_iff in Hin as ([k m'] & [= <- ->] & Hin). destruct (Hcap k m Hin) as (cap & C1 & C2).
          exists cap. split; [exact C1|]. intros y _. simpl. lia. }
      destruct H1 as (H1 & H2 & H3).
      assert (E2 : (if is_last then tmax st1 0 else st1) = st1).
      { destruct is_last; [|reflexivity]. rewrite tmax_spec. destruct (parent_bound_range g sd None apt n Hapt I). lia. }
      rewrite E2.
      destruct (site_schedule_ok g est p apt D Lg route overcome holders storage platform needs cost zones start Hest Hreqs Hapt HDt HL Hservice Hshare Hneeds cost0 Hzones Hworkers
        B sd s x occ h (ct_id ct) n t c (spec n) st1 Hm Hidx HB HZ Hg Hc Hinf (Hnotime n) H1 H2 H3) as (sd' & s' & x' & occ' & S1 & S2 & S3).
      unfold sched1, mtime, deliv, ztime, occup. rewrite S1. eauto.
    - intros ct Hct Hen. assert (Hf : In ct (filter_contractors (spec n) cs)).
      { unfold filter_contractors. apply filter_In. split; [exact Hct|]. unfold contractor_enabled.
        destruct (sp_contractors (spec n)) as [|y l] eqn:El; [reflexivity|].
        destruct Hen as [Hen|Hen]; [discriminate|]. apply existsb_exists. exists (ct_id ct). split; [exact Hen|apply Nat.eqb_refl]. }
      destruct (site_runner_ok B sd s x occ h n c ct Hm HB HZ Hf Hc Hinf) as (st & ft & tm & R & R').
      destruct R' as [[Hnone _]|(t & -> & Hg & R1 & R2 & R3)].
      { apply (borders_able g est (fun _ _ _ _ => min_optimizer) cs spec Hcs (fun _ _ _ _ => min_optimizer_ok) Hreqs Hspec Hvol Hnotime Hfit Hservice Hshare); assumption. }
      exfalso. destruct (contractor_search_exists _ _ HRg cs (spec n) HR) as [r Hr]; [|congruence].
      exists ct, st, ft, (to_workers t). split; [exact Hf|]. split; [exact R|]. unfold is_inf. inf.
      assert (ft < TIME_INF) by nia. lia.
    - eapply contractor_search_not_crash; eauto.
  Qed.

  Lemma site_loop_safe : forall nodes is_first chains rest sd s x occ h,
    sinv g cs spec chains sd s h -> (is_first = true -> sd = [] /\ h = [] /\ forall n, hd_error nodes = Some n -> zones n = []) ->
    below (apt + Z.of_nat (length (concat chains)) * (D + Lg + 1)) sd s ->
    zbelow (apt + Z.of_nat (length (concat chains)) * (D + Lg + 1)) sd x occ ->
    chains_of g nodes = Some rest ->
    Z.of_nat (length (chains ++ rest)) < TIME_INF ->
    2 * (apt + Z.of_nat (length (concat (chains ++ rest))) * (D + Lg + 1)) < TIME_INF ->
    NoDup (concat (chains ++ rest)) ->
    (forall e, In e (g_edges g) -> In (e_from e) (concat (chains ++ rest)) -> In (e_to e) (concat (chains ++ rest)) ->
       comes_before (concat (chains ++ rest)) (e_from e) (e_to e)) ->
    match loop is_first apt nodes sd (s, x) with
    | Crash => False
    | NoContractor => exists n, In n nodes /\
         forall ct, In ct cs -> (sp_contractors (spec n) = [] \/ In (ct_id ct) (sp_contractors (spec n))) ->
                    ~ able ct (reqs_of g n)
    | Done (sd', _) => forall n w, In (n, w) sd' -> sw_finish w <= apt + Z.of_nat (length (concat (chains ++ rest))) * (D + Lg + 1)
    end.
  Proof.
    induction nodes as [|n nodes IH]; intros is_first chains rest sd s x occ h HI Hf HB HZ Hch Hlen Hinf Hnd Htopo.
    { simpl in Hch. injection Hch as <-. rewrite app_nil_r in *. simpl. apply HB. }
    cbn [chains_of] in Hch. destruct (chain_of g n) as [c|] eqn:Ec; [|discriminate].
    destruct (chains_of g nodes) as [rest'|] eqn:Er; [|discriminate]. injection Hch as <-.
    unfold loop. cbn [build_loop]. fold loop. fold step.
    assert (Eapp : chains ++ c :: rest' = (chains ++ [c]) ++ rest') by (rewrite <- app_assoc; reflexivity).
    rewrite Eapp in *.
    assert (Hlc : (1 <= length c)%nat) by (destruct (chain_head _ _ _ Ec) as [r ->]; simpl; lia).
    assert (Hcat : length (concat (chains ++ [c])) = (length (concat chains) + length c)%nat).
    { rewrite concat_app, app_length. simpl. rewrite app_nil_r. reflexivity. }
    set (is_last := match nodes with [] => true | _ => false end).
    assert (Hs := site_step_safe (apt + Z.of_nat (length (concat chains)) * (D + Lg + 1)) is_first is_last sd s x occ h n c).
    assert (HL0 := proj1 HL). assert (HD0 := proj1 HD).
    assert (Hle : Z.of_nat (length (concat (chains ++ [c]))) <= Z.of_nat (length (concat ((chains ++ [c]) ++ rest')))).
    { rewrite (concat_app (chains ++ [c])), app_length. lia. }
    assert (Hup : apt + Z.of_nat (length (concat chains)) * (D + Lg + 1) + 1 + Lg + Z.of_nat (length c) * D
                  <= apt + Z.of_nat (length (concat (chains ++ [c]))) * (D + Lg + 1)) by (rewrite Hcat; nia).
    match type of Hs with ?A -> ?B -> ?C -> ?E -> ?F -> ?G -> ?H -> _ => assert (Hinf' : H) end.
    { rewrite Hcat in Hle. nia. }
    specialize (Hs (i_minv _ _ _ _ _ _ _ _ HI)).
    assert (Hx := i_idx _ _ _ _ _ _ _ _ HI).
    specialize (Hs ltac:(rewrite !app_length in Hlen; simpl in Hlen; lia) HB HZ).
    specialize (Hs ltac:(intros E; destruct (Hf E) as (F1 & F2 & F3); repeat split; auto) Ec Hinf').
    destruct (step is_first is_last apt n sd (s, x)) as [[sd1 [s1 x1]]| |] eqn:Es.
    - destruct Hs as [HB1 (occ1 & HW1 & HI1')].
      assert (HI1 : exists h1, sinv g cs spec (chains ++ [c]) sd1 s1 h1).
      { eapply (site_step_inv g est land mtime deliv ztime occup lmat ldel lzone Hest optimize cs spec apt Hcs Hopt Hreqs Hvol Hspec Hapt); [exact HI| | |exact Ec| | |exact Es].
        - intros E; apply Hf in E; tauto.
        - rewrite !app_length in Hlen. simpl in Hlen. lia.
        - rewrite concat_app in Hnd. eapply nodup_app_l. exact Hnd.
        - intros e He H1 H2. rewrite concat_app in Hnd, Htopo. eapply comes_before_prefix; [exact Hnd| |exact H2].
          apply Htopo; [exact He|apply in_or_app; left; exact H1|apply in_or_app; left; exact H2]. }
      destruct HI1 as [h1 HI1].
      assert (R := IH false (chains ++ [c]) rest' sd1 s1 x1 occ1 h1 HI1 ltac:(discriminate)).
      match type of R with ?A -> ?B -> _ => assert (HB2 : A); [|assert (HZ2 : B)] end.
      { destruct HB1 as (G1 & G2 & G3). split; [lia|]. split; [intros m w Hin; apply G2 in Hin; lia|intros y Hy; apply G3 in Hy; lia]. }
      { split; [|exact HI1']. eapply winv_mono; [exact Hup|exact HW1]. }
      specialize (R HB2 HZ2 eq_refl Hlen Hinf Hnd Htopo).
      destruct (loop false apt nodes sd1 (s1, x1)) as [[sd2 sx2]| |]; [exact R| |exact R].
      destruct R as (m & Hm & R). exists m. split; [right; exact Hm|exact R].
    - exists n. split; [left; reflexivity|exact Hs].
    - exact Hs.
  Qed.
End Safe.
