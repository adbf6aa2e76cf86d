(** C94 - C97: schedules built over the release-time timeline on a site with materials and
    zones. Vocabulary: [ScheduleSpec], [SupplySpec], [conflict] of [ZoneProofs]. *)
From Coq Require Import ZArith List Bool Lia Arith ZifyBool ZifyNat.
From Verif Require Import TimeModel MomentumModel MomentumSpec MomentumHistory MomentumTeamProofs JITModel
  GraphModel ScheduleModel ScheduleSpec TeamProofs ContractorTheorems ScheduleProofs ScheduleInv SchedulePoolProofs ScheduleSafe
  JitScheduleInv JitScheduleSafe ScheduleTheorems JitScheduleTheorems
  ZoneModel ZoneProofs ZoneTheorems SiteModel SiteProofs SiteZoneProofs SiteSupplyProofs SiteSafe SiteTheorems
  JitSiteModel JitSiteProofs JitSiteZone JitSiteSafe.
From Verif Require SupplyModel SupplySpec SupplyProofs4 SupplyTheorems.
Import ListNotations.
Local Open Scope Z_scope.

(** C94. Whatever the material and the zone timeline answer (times within infinity), a
    schedule that is built keeps precedence, chains, teams and capacities. The conclusions are
    those of C46. *)
Theorem jit_site_schedule_feasible :
  forall g est (site : Type) material_time deliver zone_time occupy (x0 : site) optimize cs spec apt nodes chains sd s x,
    (forall x n t r, material_time x n t = Some r -> r <= TIME_INF) ->
    (forall x n t r x', deliver x n t = Some (r, x') -> r <= TIME_INF) ->
    (forall x n t e r, zone_time x n t e = Some r -> - TIME_INF <= r <= TIME_INF) ->
    contractors_ok cs -> estimator_ok est ->
    (forall n c sd s, optimizer_ok (optimize n c sd s)) ->
    (forall n, reqs_ok (reqs_of g n)) -> (forall n, 0 <= volume_of g n) -> (forall n, spec_ok (spec n)) ->
    (forall n, spec_fits cs (reqs_of g n) (spec n)) ->
    0 <= apt <= TIME_INF ->
    chains_of g nodes = Some chains -> NoDup (concat chains) ->
    (forall e, In e (g_edges g) -> In (e_from e) (concat chains) -> In (e_to e) (concat chains) ->
       comes_before (concat chains) (e_from e) (e_to e)) ->
    jsite_build g est site material_time deliver zone_time occupy optimize cs spec x0 apt nodes = Done (sd, (s, x)) ->
    (* every work once, in this order *)
    map fst sd = rev (concat chains) /\
    (* proper intervals *)
    (forall n w, In (n, w) sd -> 0 <= sw_start w <= sw_finish w /\ sw_finish w <= TIME_INF) /\
    (* predecessors *)
    (forall e wu wv, In e (g_edges g) -> In (e_from e, wu) sd -> In (e_to e, wv) sd ->
       tadd (sw_finish wu) (e_lag e) <= sw_start wv) /\
    (* chains *)
    (forall c u v wu wv, In c chains -> comes_before c u v -> In (u, wu) sd -> In (v, wv) sd ->
       sw_finish wu <= sw_start wv /\ sw_team wu = sw_team wv /\ sw_contractor wu = sw_contractor wv) /\
    (* teams *)
    (forall hd r n w, In (hd :: r) chains -> In n (hd :: r) -> In (n, w) sd -> staffed g cs spec hd w) /\
    (* capacities *)
    (forall ct k n t, In ct cs -> In (k, n) (ct_workers ct) ->
       busy (schedule_bookings sd) (ct_id ct, k) t <= n).
Proof.
  intros g est site mt dl zt oc x0 optimize cs spec apt nodes chains sd s x H1 H2 H3 H4 H5 H6 H7 H8 H9 H10 H11 H12 H13 H14 H15.
  eapply jsite_build_feasible; eauto.
Qed.
Print Assumptions jit_site_schedule_feasible.

(** C95. The zones: works of the schedule that need different statuses of a zone do not
    overlap. The zones of a chain are those of its first work. Changing a status takes no time;
    the first node needs no zones; a work with zones has no execution time assigned by the
    specification; no work of its chain needs materials and the lags inside its chain are not
    positive; nothing takes half of infinity. *)
Theorem jit_site_zones_never_conflict :
  forall g est route overcome holders storage platform needs cost zones start stock vehicles bandwidth material
         optimize cs spec apt nodes chains sd s x,
    contractors_ok cs -> estimator_ok est ->
    (forall n c sd s, optimizer_ok (optimize n c sd s)) ->
    (forall n, reqs_ok (reqs_of g n)) -> (forall n, 0 <= volume_of g n) -> (forall n, spec_ok (spec n)) ->
    (forall n, spec_fits cs (reqs_of g n) (spec n)) ->
    0 <= apt <= TIME_INF ->
    chains_of g nodes = Some chains -> NoDup (concat chains) ->
    (forall s q, s <> q -> cost s q = 0) ->
    (forall n, NoDup (map fst (zones n)) /\ forall r, In r (zones n) -> start (fst r) <> None) ->
    (forall n, hd_error nodes = Some n -> zones n = []) ->
    (forall n, zones n <> [] -> sp_time (spec n) = None) ->
    (forall n c m, chain_of g n = Some c -> zones n <> [] -> In m c -> needs m = []) ->
    (forall n c e, chain_of g n = Some c -> zones n <> [] -> In e (g_edges g) -> In (e_from e) c -> In (e_to e) c -> e_lag e <= 0) ->
    jland_build route overcome holders storage platform needs cost zones g est optimize cs spec
      (SupplyModel.start_supply stock vehicles bandwidth material, zones_start start) apt nodes = Done (sd, (s, x)) ->
    (forall n w, In (n, w) sd -> 2 * sw_finish w < TIME_INF) ->
    forall u cu v cv z q q', In (u :: cu) chains -> In (v :: cv) chains ->
      In (z, q) (zones u) -> In (z, q') (zones v) -> conflict q q' ->
      (forall n w m w', In n (u :: cu) -> In (n, w) sd -> In m (v :: cv) -> In (m, w') sd -> sw_finish w <= sw_start w') \/
      (forall n w m w', In n (u :: cu) -> In (n, w) sd -> In m (v :: cv) -> In (m, w') sd -> sw_finish w' <= sw_start w).
Proof.
  intros g est route overcome holders storage platform needs cost zones start stock vehicles bandwidth material
    optimize cs spec apt nodes chains sd s x H1 H2 H3 H4 H5 H6 H6' H7 Hch Hnd Hc0 Hz Hf Hnt Htl Hlag H Hfin.
  destruct (jloop_oinv g est route overcome holders storage platform needs cost zones start H2 optimize cs spec apt H1 H3 H4 H5 H6 H6' H7 Hc0 Hz Htl Hlag Hnt
    nodes true [] chains [] (jit_init (pool_of cs)) (SupplyModel.start_supply stock vehicles bandwidth material, zones_start start) [] [] 0 sd s x)
    as (occ & HH & [_ OW _ _ OK]); auto.
  - apply (jtinv_start g est land (land_material_time route overcome holders storage platform needs)
      (land_deliver route overcome holders storage platform needs) (land_zone_time cost zones) (land_occupy cost zones)
      (pool_of cs) optimize cs spec apt eq_refl H1).
  - constructor; cbn [fst snd].
    + apply SupplyProofs4.start_plat.
    + intros z. unfold zones_start. destruct (start z) as [s0|]; [|reflexivity]. cbn. eexists. split; [reflexivity|].
      constructor; [repeat constructor|reflexivity|intros b []|intros b b' []].
    + split; [lia|reflexivity].
    + intros o [].
    + intros hd r z q [].
  - discriminate.
  - simpl in OK. intros u cu v cv z q q' Hu Hv Hzu Hzv Hcf.
    destruct (OK u cu z q Hu Hzu) as (i & lo & hi & Ho & Hbu). destruct (OK v cv z q' Hv Hzv) as (i' & lo' & hi' & Ho' & Hbv).
    specialize (OW z).
    assert (B1 : In (Bk i q lo hi) (zbook z occ)) by (apply zbook_in; eexists; split; [exact Ho|split; reflexivity]).
    assert (B2 : In (Bk i' q' lo' hi') (zbook z occ)) by (apply zbook_in; eexists; split; [exact Ho'|split; reflexivity]).
    destruct (start z) as [s0|] eqn:Es.
    + destruct OW as (l & El & I0). destruct (zi_free _ _ _ _ I0 _ _ B1 B2 Hcf) as [F|F]; apply klt_time in F; cbn in F; [left|right];
        intros n w m w' N1 N2 M1 M2; destruct (Hbu n w N1 N2), (Hbv m w' M1 M2); lia.
    + exfalso. apply (proj2 (Hz u) (z, q) Hzu). exact Es.
Qed.
Print Assumptions jit_site_zones_never_conflict.

(** C96. The materials: as in C90. *)
Theorem jit_site_materials_delivered :
  forall g est route overcome holders storage platform needs cost zones zone0 stock vehicles bandwidth material round_trip horizon
         optimize cs spec apt nodes chains sd s x,
    contractors_ok cs -> estimator_ok est ->
    (forall n c sd s, optimizer_ok (optimize n c sd s)) ->
    (forall n, reqs_ok (reqs_of g n)) -> (forall n, 0 <= volume_of g n) -> (forall n, spec_ok (spec n)) ->
    (forall n, spec_fits cs (reqs_of g n) (spec n)) ->
    0 <= apt <= TIME_INF ->
    chains_of g nodes = Some chains -> NoDup (concat chains) ->
    SupplySpec.landscape_ok route overcome holders stock vehicles bandwidth round_trip -> 0 <= round_trip -> 0 <= horizon ->
    (forall n, NoDup (map fst (needs n)) /\
       forall m c, In (m, c) (needs n) -> c <= storage (platform n) m /\ material (platform n) m <> None) ->
    jland_build route overcome holders storage platform needs cost zones g est optimize cs spec
      (SupplyModel.start_supply stock vehicles bandwidth material, zone0) apt nodes = Done (sd, (s, x)) ->
    (forall n w, In (n, w) sd -> sw_start w <= horizon) ->
    horizon + Z.of_nat (length sd) * (horizon + Z.of_nat (length sd) * round_trip) < TIME_INF ->
    exists answers,
      Forall2 (fun work e => SupplyModel.c_platform (fst (fst e)) = platform (fst work) /\
                             SupplyModel.c_needs (fst (fst e)) = needs (fst work) /\
                             SupplyModel.c_deadline (fst (fst e)) <= sw_start (snd work) /\
                             sw_start (snd work) = snd e /\
                             SupplySpec.answered route overcome holders e)
              (rev sd) answers /\
      (forall h m, SupplySpec.taken h m (SupplySpec.deliveries answers) <= match stock h m with Some n => n | None => 0 end) /\
      (forall r t, SupplySpec.traffic r (SupplySpec.deliveries answers) t <= bandwidth r).
Proof.
  intros g est route overcome holders storage platform needs cost zones zone0 stock vehicles bandwidth material round_trip horizon
    optimize cs spec apt nodes chains sd s x H1 H2 H3 H4 H5 H6 H6' H7 Hch Hnd HL Hrt Hh Hneeds H Hst Hinf.
  destruct (jloop_history g est route overcome holders storage platform needs cost zones (fun _ => None) H2 optimize cs spec apt H1 H3 H4 H5 H6 H6' H7
    nodes true [] chains [] (jit_init (pool_of cs)) (SupplyModel.start_supply stock vehicles bandwidth material, zone0) [] sd s x)
    as (new & out & E & Eh & F); [|auto|discriminate|exact Hch|exact Hnd|exact H|].
  { apply (jtinv_start g est land (land_material_time route overcome holders storage platform needs)
      (land_deliver route overcome holders storage platform needs) (land_zone_time cost zones) (land_occupy cost zones)
      (pool_of cs) optimize cs spec apt eq_refl H1). }
  rewrite app_nil_r in E. cbn [fst] in Eh. eapply supplied_delivered; eauto.
Qed.
Print Assumptions jit_site_materials_delivered.

(** C97. No work needs materials; zones change their status for free, the first node needs
    none and the lags inside a chain with zones are not positive. Then either there is a
    schedule, and every work ends within [works * (longest execution + longest lag + 1)] of the
    start, or some work has no allowed contractor with enough workers. Heads of chains have no
    inseparable predecessor. *)
Theorem jit_site_schedule_never_crashes :
  forall g est route overcome holders storage platform needs cost zones start supply
         optimize cs spec apt D Lg nodes chains,
    contractors_ok cs -> estimator_ok est ->
    (forall n c sd s, optimizer_ok (optimize n c sd s)) ->
    optimizer_answers (jsite_find g est land (land_material_time route overcome holders storage platform needs) (land_zone_time cost zones))
      optimize (reqs_of g) cs spec apt ->
    (forall n, reqs_ok (reqs_of g n)) -> (forall n, 0 <= volume_of g n) -> (forall n, spec_ok (spec n)) ->
    (forall n, spec_fits cs (reqs_of g n) (spec n)) ->
    0 <= apt <= TIME_INF ->
    single_inseparable_parent g -> inseparable_lags_ok g ->
    chains_of g nodes = Some chains -> NoDup (concat chains) ->
    (forall n, In n nodes -> inseparable_parent g n = None) ->
    (0 <= D /\ estimates_bounded g est cs spec D) -> (0 <= Lg /\ forall e, In e (g_edges g) -> e_lag e <= Lg) ->
    2 * (apt + Z.of_nat (length (concat chains)) * (D + Lg + 1)) < TIME_INF ->
    (forall n, sp_time (spec n) = None) ->
    (forall n, needs n = []) ->
    (forall s q, s <> q -> cost s q = 0) ->
    (forall n, NoDup (map fst (zones n)) /\ forall r, In r (zones n) -> start (fst r) <> None) ->
    (forall n, hd_error nodes = Some n -> zones n = []) ->
    (forall n c e, chain_of g n = Some c -> zones n <> [] -> In e (g_edges g) -> In (e_from e) c -> In (e_to e) c -> e_lag e <= 0) ->
    let result := jland_build route overcome holders storage platform needs cost zones g est optimize cs spec
                    (supply, zones_start start) apt nodes in
    (exists sd s, result = Done (sd, s) /\
       forall n w, In (n, w) sd -> sw_finish w <= apt + Z.of_nat (length (concat chains)) * (D + Lg + 1)) \/
    (result = NoContractor /\
     exists n, In n nodes /\
       forall ct, In ct cs -> (sp_contractors (spec n) = [] \/ In (ct_id ct) (sp_contractors (spec n))) ->
                  ~ able ct (u_reqs (g_unit g n))).
Proof.
  intros g est route overcome holders storage platform needs cost zones start supply optimize cs spec apt D Lg nodes chains
    Hcs Hest Hopt Hans Hreqs Hvol Hspec Hfit Hapt Hsi Hla Hch Hnd Hpar HD HL Hinf Hnt Hneeds Hc0 Hz Hf Hlag result.
  assert (R := jsite_loop_safe g est optimize cs spec apt D Lg route overcome holders storage platform needs cost zones start
    Hcs Hest Hopt Hans Hreqs Hspec Hapt Hvol Hfit Hsi Hla HD HL Hnt Hneeds Hc0 Hz Hlag
    nodes true [] chains [] (jit_init (pool_of cs)) (supply, zones_start start) [] []).
  specialize (R (jtinv_start g est land (land_material_time route overcome holders storage platform needs)
      (land_deliver route overcome holders storage platform needs) (land_zone_time cost zones) (land_occupy cost zones)
      (pool_of cs) optimize cs spec apt eq_refl Hcs)).
  specialize (R (fun _ => conj eq_refl (conj eq_refl Hf)) ltac:(discriminate)).
  match type of R with ?A -> ?B -> _ => assert (HA : A); [|assert (HB : B)] end.
  { split; [intros n w []|]. apply jit_init_times. simpl. lia. }
  { split; [|intros o []]. intros z. unfold zones_start. cbn [snd]. destruct (start z) as [s0|]; [|reflexivity]. cbn. eexists. split; [reflexivity|].
    constructor; [repeat constructor|reflexivity|intros b []|intros b b' []]. }
  specialize (R HA HB Hch Hpar Hinf Hnd). unfold result, jland_build.
  unfold jsite_build. destruct (build_loop _ _ _ _ _ _ _ _ _ _ _ _) as [[sd s]| |]; [left; eauto|right; eauto|contradiction].
Qed.
Print Assumptions jit_site_schedule_never_crashes.

(** ** A concrete case *)
(** The project of [sx_graph] on the site of [SupplyTheorems]: work 1 (and 2 in its chain)
    needs zone 0 open (1), work 3 needs zone 0 closed (2) and zone 1 open, work 4 needs 30 of
    material 0. *)
Definition jt_needs (n : nat) : SupplyModel.request := match n with 4%nat => [(0%nat, 30)] | _ => [] end.
Definition jt_zones (n : nat) : list zreq :=
  match n with 1%nat => [(0, 1)]%nat | 3%nat => [(0, 2); (1, 1)]%nat | _ => [] end.
Definition jt_optimize (n c : nat) (sd : sched) (s : jtimeline * land) := min_optimizer.
Definition jt_build needs zones :=
  jland_build SupplyTheorems.sm_route SupplyTheorems.sm_overcome SupplyTheorems.sm_holders SupplyTheorems.sm_storage
    (fun _ => 2%nat) needs (fun _ _ => 0) zones sx_graph sx_est jt_optimize sx_contractors sx_spec
    (SupplyTheorems.sm_start, zones_start zx_start) 0 sx_nodes.
Definition jt_view (r : outcome (sched * (jtimeline * land))) :=
  match r with
  | Done (sd, _) => map (fun x => (fst x, sw_start (snd x), sw_finish (snd x), sw_contractor (snd x))) (rev sd)
  | _ => []
  end.
Definition jt_result := jt_build jt_needs jt_zones.
Example jt_schedule : jt_view jt_result =
  [(0%nat, 0, 0, 1%nat); (1%nat, 0, 11, 1%nat); (2%nat, 11, 23, 1%nat);
   (3%nat, 23, 31, 1%nat); (4%nat, 32, 41, 1%nat); (5%nat, 41, 41, 1%nat)].
Proof. vm_compute. reflexivity. Qed.
(** Without zones work 3 comes earlier; with materials for works 1, 3 and 4 work 1 waits. *)
Example jt_without_zones : jt_view (jt_build jt_needs (fun _ => [])) =
  [(0%nat, 0, 0, 1%nat); (1%nat, 0, 11, 1%nat); (2%nat, 11, 23, 1%nat);
   (3%nat, 2, 10, 0%nat); (4%nat, 23, 32, 1%nat); (5%nat, 32, 32, 1%nat)].
Proof. vm_compute. reflexivity. Qed.
Example jt_materials : jt_view (jt_build st_needs (fun _ => [])) =
  [(0%nat, 0, 0, 1%nat); (1%nat, 4, 15, 1%nat); (2%nat, 15, 27, 1%nat);
   (3%nat, 5, 13, 0%nat); (4%nat, 27, 36, 1%nat); (5%nat, 36, 36, 1%nat)].
Proof. vm_compute. reflexivity. Qed.

(** The hypotheses of C94 - C97 that are not those of C46 and C47 (see [sx_hypotheses] and
    [jx_hypotheses]). *)
Example jt_hypotheses :
  (forall n c sd s, optimizer_ok (jt_optimize n c sd s)) /\
  (forall find, optimizer_answers find jt_optimize (reqs_of sx_graph) sx_contractors sx_spec 0) /\
  (forall s q : nat, s <> q -> (fun _ _ : nat => 0) s q = 0) /\
  (forall n, NoDup (map fst (jt_zones n)) /\ forall r, In r (jt_zones n) -> zx_start (fst r) <> None) /\
  (forall n, hd_error sx_nodes = Some n -> jt_zones n = []) /\
  (forall n c m, chain_of sx_graph n = Some c -> jt_zones n <> [] -> In m c -> jt_needs m = []) /\
  (forall n c e, chain_of sx_graph n = Some c -> jt_zones n <> [] -> In e (g_edges sx_graph) -> In (e_from e) c -> In (e_to e) c -> e_lag e <= 0) /\
  (forall sd s x n w, jt_result = Done (sd, (s, x)) -> In (n, w) sd -> 2 * sw_finish w < TIME_INF /\ sw_start w <= 50 /\ length sd = 6%nat) /\
  (forall n, NoDup (map fst (jt_needs n)) /\
     forall m c, In (m, c) (jt_needs n) -> c <= SupplyTheorems.sm_storage 2 m /\ SupplyTheorems.sm_material 2 m <> None) /\
  2 * (0 + Z.of_nat (length (concat sx_chains)) * (15 + 2 + 1)) < TIME_INF.
Proof.
  repeat match goal with |- _ /\ _ => split end; try lia.
  - intros; exact min_optimizer_ok.
  - intros find. apply min_optimizer_answers.
  - intros [|[|[|[|n]]]]; simpl; (split; [repeat constructor; simpl; intuition lia|]); intros r Hr; simpl in Hr; repeat destruct Hr as [<-|Hr]; try contradiction; discriminate.
  - intros n [= <-]. reflexivity.
  - intros [|[|[|[|n]]]] c m E Hz Hm; cbn in Hz; try congruence; cbn in E; injection E as <-; simpl in Hm;
      repeat destruct Hm as [<-|Hm]; try contradiction; reflexivity.
  - intros [|[|[|[|n]]]] c e E Hz He; cbn in Hz; try congruence; cbn in E; injection E as <-; simpl in He;
      repeat destruct He as [<-|He]; try contradiction; simpl; intros; intuition lia.
  - intros sd s x n w E Hin. vm_compute in E. injection E as <- _ _. simpl in Hin.
    repeat destruct Hin as [Hin|Hin]; try contradiction; injection Hin as <- <-; vm_compute; repeat split; discriminate.
  - intros [|[|[|[|[|n]]]]]; simpl; (split; [repeat constructor; simpl; intuition lia|]); intros m c Hm; simpl in Hm; repeat destruct Hm as [Hm|Hm]; try contradiction; injection Hm as <- <-; (split; [unfold SupplyTheorems.sm_storage; lia|discriminate]).
  - reflexivity.
Qed.
Example jt_safe_schedule : exists sd s, jt_build (fun _ => []) jt_zones = Done (sd, s) /\
  forall n w, In (n, w) sd -> sw_finish w <= 0 + Z.of_nat (length (concat sx_chains)) * (15 + 2 + 1).
Proof.
  destruct sx_hypotheses as (X1 & X2 & X3 & X4 & X5 & X6 & X7 & X8 & X9 & X10 & X11 & X12 & X13 & X14 & X15 & X16 & X17 & X18 & X19).
  destruct jx_hypotheses as (J1 & J2 & J3).
  destruct jt_hypotheses as (T1 & T2 & T3 & T4 & T5 & _ & T6 & _ & _ & T7).
  destruct (jit_site_schedule_never_crashes sx_graph sx_est SupplyTheorems.sm_route SupplyTheorems.sm_overcome SupplyTheorems.sm_holders SupplyTheorems.sm_storage
    (fun _ => 2%nat) (fun _ => []) (fun _ _ => 0) jt_zones zx_start SupplyTheorems.sm_start jt_optimize sx_contractors sx_spec 0 15 2 sx_nodes sx_chains
    X1 X2 T1 (T2 _) X5 X6 X7 X17 X8 J1 J2 X9 X10 J3 X13 X14 T7 X16 (fun _ => eq_refl) T3 T4 T5 T6) as [R|[R _]]; [exact R|].
  exfalso. revert R. vm_compute. discriminate.
Qed.

(** ** Findings *)
(** The search for a start ignores the predecessors, and the zones are held from the start
    that was found. Work 3 starts 20 after work 0; its zone is closed from 0 on, and work 1,
    which needs it open and would need it for 10 (with work 2), waits for 25. *)
Definition jw_build workers needs zones :=
  jland_build (SupplyTheorems.all_roads [0%nat]) (fun _ => 18) (SupplyTheorems.one_depot 1 100) (fun _ _ => 100) (fun _ => 1%nat)
    needs (fun _ _ => 0) zones su_graph sy_est jt_optimize [Ct 0 [(0%nat, workers)]] (fun _ => WSpec [] [] None false)
    (SupplyModel.start_supply (fun _ _ => Some 1000) (fun _ => 1) (fun _ => 5) (fun _ _ => Some 0), zones_start zx_start) 0 [0; 3; 1]%nat.
Theorem jit_zone_held_while_waiting :
  jt_view (jw_build 2 (fun _ => []) su_zones) = [(0%nat, 0, 0, 0%nat); (3%nat, 20, 25, 0%nat); (1%nat, 25, 30, 0%nat); (2%nat, 30, 35, 0%nat)] /\
  jt_view (jw_build 2 (fun _ => []) (fun _ => [])) = [(0%nat, 0, 0, 0%nat); (3%nat, 20, 25, 0%nat); (1%nat, 0, 5, 0%nat); (2%nat, 5, 10, 0%nat)].
Proof. split; vm_compute; reflexivity. Qed.
Print Assumptions jit_zone_held_while_waiting.

(** Neither the lags inside a chain nor the materials of its later works are known to the
    search. Work 4 has the worker of kind 0 until 20, then work 3 has the worker and closes the
    zone until 25; the chain 1 - 2 needs the zone open and the worker of kind 1 and is given
    the start 0. If it takes longer than 20, the zone timeline fails. *)
Definition jv_graph lag : graph :=
  Gr [Ed 0 4 0 FS; Ed 0 3 0 FS; Ed 0 1 0 FS; Ed 1 2 lag IFS]
     (fun n => match n with 0 => WU true [] 0 | 1 | 2 => WU false [Req 1 1 1 1] 1 | _ => WU false [Req 0 1 1 1] 1 end%nat).
Definition jv_est (n : nat) (team : list worker) : Z := match team with [] => 0 | _ => if Nat.eqb n 4 then 20 else 5 end.
Definition jv_build lag needs :=
  jland_build (SupplyTheorems.all_roads [0%nat]) (fun _ => 18) (SupplyTheorems.one_depot 1 100) (fun _ _ => 100) (fun _ => 1%nat)
    needs (fun _ _ => 0) su_zones (jv_graph lag) jv_est jt_optimize [Ct 0 [(0%nat, 1); (1%nat, 1)]] (fun _ => WSpec [] [] None false)
    (SupplyModel.start_supply (fun _ _ => Some 1000) (fun _ => 1) (fun _ => 5) (fun _ _ => Some 0), zones_start zx_start) 0 [0; 4; 3; 1]%nat.
Theorem jit_chain_outgrows_zone :
  jv_build 30 (fun _ => []) = Crash /\ jv_build 0 su_needs = Crash /\
  jt_view (jv_build 0 (fun _ => [])) = [(0%nat, 0, 0, 0%nat); (4%nat, 0, 20, 0%nat); (3%nat, 20, 25, 0%nat); (1%nat, 0, 5, 0%nat); (2%nat, 5, 10, 0%nat)].
Proof. split; [|split]; vm_compute; reflexivity. Qed.
Print Assumptions jit_chain_outgrows_zone.
