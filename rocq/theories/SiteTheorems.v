(** C88 - C90: schedules built by the list scheduler on a site with materials and zones.
    Vocabulary: [ScheduleSpec], [SupplySpec], [conflict] of [ZoneProofs]. *)
From Coq Require Import ZArith List Bool Lia Arith ZifyBool ZifyNat.
From Verif Require Import TimeModel MomentumModel MomentumSpec MomentumHistory MomentumTeamProofs
  GraphModel ScheduleModel ScheduleSpec TeamProofs ContractorTheorems ScheduleProofs ScheduleInv SchedulePoolProofs ScheduleSafe ScheduleTheorems
  ZoneModel ZoneProofs ZoneTheorems SiteModel SiteProofs SiteZoneProofs SiteSupplyProofs.
From Verif Require SupplyModel SupplySpec SupplyProofs4 SupplyTheorems.
Import ListNotations.
Local Open Scope Z_scope.

(** C88. Whatever the material and the zone timeline answer (times that do not exceed
    infinity), a schedule that is built keeps precedence, chains, teams and capacities. The
    conclusions are those of C11. *)
Theorem site_schedule_feasible :
  forall g est (site : Type) material_time deliver zone_time occupy (x0 : site) optimize cs spec apt nodes chains sd s x,
    (forall x n t r, material_time x n t = Some r -> r <= TIME_INF) ->
    (forall x n t r x', deliver x n t = Some (r, x') -> r <= TIME_INF) ->
    (forall x n t e r, zone_time x n t e = Some r -> r <= TIME_INF) ->
    contractors_ok cs -> estimator_ok est ->
    (forall n c sd s, optimizer_ok (optimize n c sd s)) ->
    (forall n, reqs_ok (reqs_of g n)) -> (forall n, 0 <= volume_of g n) -> (forall n, spec_ok (spec n)) ->
    0 <= apt <= TIME_INF ->
    chains_of g nodes = Some chains -> NoDup (concat chains) -> Z.of_nat (length nodes) < TIME_INF ->
    (forall e, In e (g_edges g) -> In (e_from e) (concat chains) -> In (e_to e) (concat chains) ->
       comes_before (concat chains) (e_from e) (e_to e)) ->
    site_build g est site material_time deliver zone_time occupy optimize cs spec x0 apt nodes = Done (sd, (s, x)) ->
    (* every work once, in this order *)
    map fst sd = rev (concat chains) /\
    (* proper intervals *)
    (forall n w, In (n, w) sd -> 0 <= sw_start w <= sw_finish w /\ sw_finish w <= TIME_INF) /\
    (* predecessors outside the chain *)
    (forall e wu wv, In e (g_edges g) -> In (e_from e, wu) sd -> In (e_to e, wv) sd ->
       ~ same_chain chains (e_from e) (e_to e) -> not_pinned spec chains (e_to e) ->
       tadd (sw_finish wu) (e_lag e) <= sw_start wv) /\
    (* chains *)
    (forall c u v wu wv, In c chains -> comes_before c u v -> In (u, wu) sd -> In (v, wv) sd ->
       sw_finish wu <= sw_start wv /\ sw_team wu = sw_team wv /\ sw_contractor wu = sw_contractor wv) /\
    (* teams *)
    (forall hd r n w, In (hd :: r) chains -> In n (hd :: r) -> In (n, w) sd -> staffed g cs spec hd w) /\
    (* capacities *)
    (forall ct k n t, In ct cs -> In (k, n) (ct_workers ct) ->
       busy (schedule_bookings sd) (ct_id ct, k) t <= n).
Proof.
  intros g est site mt dl zt oc x0 optimize cs spec apt nodes chains sd s x H1 H2 H3 H4 H5 H6 H7 H8 H9 H10 H11 H12 H13 H14 H15.
  eapply site_build_feasible; eauto.
Qed.
Print Assumptions site_schedule_feasible.

(** C89. The zones: works of the schedule that need different statuses of a zone do not
    overlap. [zones n] are the requirements of a work; the zones of a chain are those of its
    first work and are held from its start to the finish of its last work. Changing a status
    takes no time; a work with zones needs workers, is not the first one, has no execution time
    assigned by the specification and only the first work of its chain needs materials;
    nothing takes half of infinity. *)
Theorem site_zones_never_conflict :
  forall g est route overcome holders storage platform needs cost zones start stock vehicles bandwidth material
         optimize cs spec apt nodes chains sd s x,
    contractors_ok cs -> estimator_ok est ->
    (forall n c sd s, optimizer_ok (optimize n c sd s)) ->
    (forall n, reqs_ok (reqs_of g n)) -> (forall n, 0 <= volume_of g n) -> (forall n, spec_ok (spec n)) ->
    0 <= apt <= TIME_INF ->
    chains_of g nodes = Some chains -> NoDup (concat chains) -> Z.of_nat (length nodes) < TIME_INF ->
    (forall e, In e (g_edges g) -> In (e_from e) (concat chains) -> In (e_to e) (concat chains) ->
       comes_before (concat chains) (e_from e) (e_to e)) ->
    (forall s q, s <> q -> cost s q = 0) ->
    (forall n, NoDup (map fst (zones n)) /\ forall r, In r (zones n) -> start (fst r) <> None) ->
    (forall n, reqs_of g n = [] -> zones n = []) ->
    (forall n, hd_error nodes = Some n -> zones n = []) ->
    (forall n, zones n <> [] -> sp_time (spec n) = None) ->
    (forall n c m, chain_of g n = Some c -> zones n <> [] -> In m (tl c) -> needs m = []) ->
    land_build route overcome holders storage platform needs cost zones g est optimize cs spec
      (SupplyModel.start_supply stock vehicles bandwidth material, zones_start start) apt nodes = Done (sd, (s, x)) ->
    (forall n w, In (n, w) sd -> 2 * sw_finish w < TIME_INF) ->
    forall u cu v cv z q q', In (u :: cu) chains -> In (v :: cv) chains ->
      In (z, q) (zones u) -> In (z, q') (zones v) -> conflict q q' ->
      (forall n w m w', In n (u :: cu) -> In (n, w) sd -> In m (v :: cv) -> In (m, w') sd -> sw_finish w <= sw_start w') \/
      (forall n w m w', In n (u :: cu) -> In (n, w) sd -> In m (v :: cv) -> In (m, w') sd -> sw_finish w' <= sw_start w).
Proof.
  intros g est route overcome holders storage platform needs cost zones start stock vehicles bandwidth material
    optimize cs spec apt nodes chains sd s x H1 H2 H3 H4 H5 H6 H7 Hch Hnd Hlen Htopo Hc0 Hz Hw Hf Hnt Htl H Hfin.
  destruct (loop_oinv g est route overcome holders storage platform needs cost zones start H2 optimize cs spec apt H1 H3 H4 H5 H6 H7 Hc0 Hz Hw Htl Hnt
    nodes true [] chains [] (momentum_init (pool_of cs)) (SupplyModel.start_supply stock vehicles bandwidth material, zones_start start) [] [] 0 sd s x)
    as (occ & HH & [_ OW _ _ OK]); auto.
  - apply (sinv_init g cs spec H1).
  - constructor; cbn [fst snd].
    + apply SupplyProofs4.start_plat.
    + intros z. unfold zones_start. destruct (start z) as [s0|]; [|reflexivity]. cbn. eexists. split; [reflexivity|].
      constructor; [repeat constructor|reflexivity|intros b []|intros b b' []].
    + split; [lia|reflexivity].
    + intros o [].
    + intros hd r z q [].
  - simpl. rewrite (chains_of_length _ _ _ Hch). exact Hlen.
  - simpl in OK. intros u cu v cv z q q' Hu Hv Hzu Hzv Hcf.
    destruct (OK u cu z q Hu Hzu) as (i & lo & hi & Ho & Hbu). destruct (OK v cv z q' Hv Hzv) as (i' & lo' & hi' & Ho' & Hbv).
    specialize (OW z).
    assert (B1 : In (Bk i q lo hi) (zbook z occ)) by (apply zbook_in; eexists; split; [exact Ho|split; reflexivity]).
    assert (B2 : In (Bk i' q' lo' hi') (zbook z occ)) by (apply zbook_in; eexists; split; [exact Ho'|split; reflexivity]).
    destruct (start z) as [s0|] eqn:Es.
    + destruct OW as (l & El & I0). destruct (zi_free _ _ _ _ I0 _ _ B1 B2 Hcf) as [F|F]; apply klt_time in F; cbn in F; [left|right];
        intros n w m w' N1 N2 M1 M2; destruct (Hbu n w N1 N2), (Hbv m w' M1 M2); lia.
    + exfalso. apply (proj2 (Hz u) (z, q) Hzu). exact Es.
Qed.
Print Assumptions site_zones_never_conflict.

(** The answers of the supply timeline to the orders of a schedule. *)
Lemma supplied_delivered route overcome holders storage platform needs stock vehicles bandwidth material round_trip horizon (sd new : sched) out x1 :
  SupplySpec.landscape_ok route overcome holders stock vehicles bandwidth round_trip -> 0 <= round_trip -> 0 <= horizon ->
  (forall n, NoDup (map fst (needs n)) /\
     forall m c, In (m, c) (needs n) -> c <= storage (platform n) m /\ material (platform n) m <> None) ->
  sd = rev new ->
  SupplyModel.history_of route overcome holders storage (SupplyModel.start_supply stock vehicles bandwidth material) (map call_of out) = SupplyModel.Fine (out, x1) ->
  Forall2 (supplied platform needs) new out ->
  (forall n w, In (n, w) sd -> sw_start w <= horizon) ->
  horizon + Z.of_nat (length sd) * (horizon + Z.of_nat (length sd) * round_trip) < TIME_INF ->
  exists answers,
    Forall2 (fun work e => SupplyModel.c_platform (fst (fst e)) = platform (fst work) /\
                           SupplyModel.c_needs (fst (fst e)) = needs (fst work) /\
                           SupplyModel.c_deadline (fst (fst e)) <= sw_start (snd work) /\
                           sw_start (snd work) = snd e /\
                           SupplySpec.answered route overcome holders e)
            (rev sd) answers /\
    (forall h m, SupplySpec.taken h m (SupplySpec.deliveries answers) <= match stock h m with Some n => n | None => 0 end) /\
    (forall r t, SupplySpec.traffic r (SupplySpec.deliveries answers) t <= bandwidth r).
Proof.
  intros HL Hrt Hh Hneeds E Eh F Hst Hinf.
  assert (Er : rev sd = new) by (rewrite E; apply rev_involutive).
  assert (Hn : length out = length sd).
  { rewrite E, rev_length. clear - F. induction F; simpl; congruence. }
  assert (Hbound : forall y e, In (y, e) (combine new out) -> supplied platform needs y e /\ sw_start (snd y) <= horizon).
  { assert (Hnew : forall m w, In (m, w) new -> sw_start w <= horizon) by (intros m w Hin; apply (Hst m w); rewrite E, <- in_rev; exact Hin).
    clear - F Hnew. induction F as [|y e new out S F IH]; [intros ? ? []|]. intros y0 e0 [[= <- <-]|Hin].
    - split; [exact S|]. destruct y as [m w]. apply (Hnew m w). left. reflexivity.
    - apply IH; [|exact Hin]. intros m w Hm. apply (Hnew m w). right. exact Hm. }
  assert (Hcalls : forall c, In c (map call_of out) -> SupplySpec.call_ok storage material horizon c).
  { intros c Hc. apply in_map_iff in Hc as (e & <- & He).
    assert (Hy : exists y, In (y, e) (combine new out)).
    { clear - F He. induction F as [|y e0 new out S F IH]; [destruct He|]. destruct He as [->|He]; [exists y; left; reflexivity|].
      destruct (IH He) as [y0 Hy]. exists y0. right. exact Hy. }
    destruct Hy as [y Hy]. destruct (Hbound y e Hy) as [Sp Hs]. destruct e as [[c d] t]. destruct Sp as (S1 & S2 & S3 & S4). cbn [call_of fst].
    destruct (Hneeds (fst y)) as [N1 N2]. split; [lia|]. rewrite S2, S1. split; [exact N1|exact N2]. }
  assert (Hl : length (map call_of out) = length sd) by (rewrite map_length; exact Hn).
  destruct (SupplyTheorems.supply_never_overdraws route overcome holders storage stock vehicles bandwidth material round_trip horizon
    (map call_of out) HL Hrt Hh Hcalls ltac:(rewrite Hl; exact Hinf)) as (out' & s' & E' & O1 & O2).
  rewrite Eh in E'. injection E' as <- <-.
  assert (A := SupplyTheorems.deliveries_travel route overcome holders storage stock vehicles bandwidth material round_trip horizon
    (map call_of out) out x1 HL Hrt Hh Hcalls ltac:(rewrite Hl; exact Hinf) Eh).
  assert (A' : forall e, In e out -> SupplySpec.answered route overcome holders e) by (intros e He; apply A; exact He).
  exists out. rewrite Er. split; [|split; assumption].
  assert (Hsmall : horizon < TIME_INF) by (assert (0 <= Z.of_nat (length sd) * (horizon + Z.of_nat (length sd) * round_trip)) by lia; lia).
  clear - F A' Hbound Hsmall. induction F as [|y e new out S F IH]; constructor.
  - destruct (Hbound y e (or_introl eq_refl)) as [_ Hs]. assert (An := A' e (or_introl eq_refl)).
    destruct e as [[c d] t]. destruct S as (S1 & S2 & S3 & S4). cbn [fst snd]. split; [exact S1|]. split; [exact S2|]. split; [lia|]. split; [|exact An].
    assert (Hd : SupplyModel.c_deadline c <= t).
    { destruct d as [d|]; simpl in An; [apply An|lia]. }
    destruct (set_time_cases t) as [[E _]|[[? E]|[? E]]]; rewrite E in S4; [lia|lia|]. change (- TIME_INF) with (-2000000000) in *. lia.
  - apply IH; [|intros e0 He; apply A'; right; exact He]. intros y0 e0 Hin. apply (Hbound y0 e0). right. exact Hin.
Qed.

(** C90. The materials: the works of the schedule, in the order of scheduling, have each one
    answer of the supply timeline to the order of exactly the materials the work needs at its
    platform; the work starts at the very time of this answer, when the delivery, if there is
    one, has arrived over its route; no depot gives out more than it had and no road carries
    more vehicles than it may. *)
Theorem site_materials_delivered :
  forall g est route overcome holders storage platform needs cost zones zone0 stock vehicles bandwidth material round_trip horizon
         optimize cs spec apt nodes sd s x,
    contractors_ok cs -> estimator_ok est ->
    (forall n c sd s, optimizer_ok (optimize n c sd s)) ->
    (forall n, reqs_ok (reqs_of g n)) -> (forall n, 0 <= volume_of g n) -> (forall n, spec_ok (spec n)) ->
    0 <= apt <= TIME_INF ->
    SupplySpec.landscape_ok route overcome holders stock vehicles bandwidth round_trip -> 0 <= round_trip -> 0 <= horizon ->
    (forall n, NoDup (map fst (needs n)) /\
       forall m c, In (m, c) (needs n) -> c <= storage (platform n) m /\ material (platform n) m <> None) ->
    land_build route overcome holders storage platform needs cost zones g est optimize cs spec
      (SupplyModel.start_supply stock vehicles bandwidth material, zone0) apt nodes = Done (sd, (s, x)) ->
    (forall n w, In (n, w) sd -> sw_start w <= horizon) ->
    horizon + Z.of_nat (length sd) * (horizon + Z.of_nat (length sd) * round_trip) < TIME_INF ->
    exists answers,
      Forall2 (fun work e => SupplyModel.c_platform (fst (fst e)) = platform (fst work) /\
                             SupplyModel.c_needs (fst (fst e)) = needs (fst work) /\
                             SupplyModel.c_deadline (fst (fst e)) <= sw_start (snd work) /\
                             sw_start (snd work) = snd e /\
                             SupplySpec.answered route overcome holders e)
              (rev sd) answers /\
      (forall h m, SupplySpec.taken h m (SupplySpec.deliveries answers) <= match stock h m with Some n => n | None => 0 end) /\
      (forall r t, SupplySpec.traffic r (SupplySpec.deliveries answers) t <= bandwidth r).
Proof.
  intros g est route overcome holders storage platform needs cost zones zone0 stock vehicles bandwidth material round_trip horizon
    optimize cs spec apt nodes sd s x H1 H2 H3 H4 H5 H6 H7 HL Hrt Hh Hneeds H Hst Hinf.
  destruct (loop_history g est route overcome holders storage platform needs cost zones H2 optimize cs spec apt H1 H3 H4 H5 H6 H7
    nodes true [] (momentum_init (pool_of cs)) (SupplyModel.start_supply stock vehicles bandwidth material, zone0) sd s x (fun _ => eq_refl) H)
    as (new & out & E & Eh & F). rewrite app_nil_r in E. cbn [fst] in Eh.
  eapply supplied_delivered; eauto.
Qed.
Print Assumptions site_materials_delivered.

(** ** A concrete case *)
(** The project of [sx_graph] on the site of [SupplyTheorems] (two depots, one platform):
    work 1 needs 30 of material 0 and zone 0 open (1), work 3 needs 15 of it and zone 0 closed
    (2), work 4 needs 30 and zone 0 open and zone 1 closed. *)
Definition st_needs (n : nat) : SupplyModel.request :=
  match n with 1%nat => [(0%nat, 30)] | 3%nat => [(0%nat, 15)] | 4%nat => [(0%nat, 30)] | _ => [] end.
Definition st_zones (n : nat) : list zreq :=
  match n with 1%nat => [(0, 1)]%nat | 3%nat => [(0, 2)]%nat | 4%nat => [(0, 1); (1, 2)]%nat | _ => [] end.
Definition st_optimize (n c : nat) (sd : sched) (s : mstate * land) := min_optimizer.
Definition st_build needs zones spec nodes :=
  land_build SupplyTheorems.sm_route SupplyTheorems.sm_overcome SupplyTheorems.sm_holders SupplyTheorems.sm_storage
    (fun _ => 2%nat) needs (fun _ _ => 0) zones sx_graph sx_est st_optimize sx_contractors spec
    (SupplyTheorems.sm_start, zones_start zx_start) 0 nodes.
Definition st_result := st_build st_needs st_zones sx_spec sx_nodes.
Definition st_view (r : outcome (sched * (mstate * land))) :=
  match r with
  | Done (sd, _) => map (fun x => (fst x, sw_start (snd x), sw_finish (snd x), sw_contractor (snd x))) (rev sd)
  | _ => []
  end.
Example st_schedule : st_view st_result =
  [(0%nat, 0, 0, 1%nat); (1%nat, 4, 15, 1%nat); (2%nat, 15, 27, 1%nat);
   (3%nat, 27, 35, 1%nat); (4%nat, 36, 45, 1%nat); (5%nat, 45, 45, 1%nat)].
Proof. vm_compute. reflexivity. Qed.
(** Without zones work 3 comes earlier, without materials work 1. *)
Example st_without_zones : st_view (st_build st_needs (fun _ => []) sx_spec sx_nodes) =
  [(0%nat, 0, 0, 1%nat); (1%nat, 4, 15, 1%nat); (2%nat, 15, 27, 1%nat);
   (3%nat, 5, 13, 0%nat); (4%nat, 27, 36, 1%nat); (5%nat, 36, 36, 1%nat)].
Proof. vm_compute. reflexivity. Qed.
Example st_without_materials : st_view (st_build (fun _ => []) st_zones sx_spec sx_nodes) =
  [(0%nat, 0, 0, 1%nat); (1%nat, 0, 11, 1%nat); (2%nat, 11, 23, 1%nat);
   (3%nat, 23, 31, 1%nat); (4%nat, 32, 41, 1%nat); (5%nat, 41, 41, 1%nat)].
Proof. vm_compute. reflexivity. Qed.

(** The hypotheses of C88 - C90 that are not those of C11 (see [sx_hypotheses]). *)
Example st_hypotheses :
  (forall s q : nat, s <> q -> (fun _ _ : nat => 0) s q = 0) /\
  (forall n, NoDup (map fst (st_zones n)) /\ forall r, In r (st_zones n) -> zx_start (fst r) <> None) /\
  (forall n, reqs_of sx_graph n = [] -> st_zones n = []) /\
  (forall n, hd_error sx_nodes = Some n -> st_zones n = []) /\
  (forall n, st_zones n <> [] -> sp_time (sx_spec n) = None) /\
  (forall n c m, chain_of sx_graph n = Some c -> st_zones n <> [] -> In m (tl c) -> st_needs m = []) /\
  (forall sd s x n w, st_result = Done (sd, (s, x)) -> In (n, w) sd -> 2 * sw_finish w < TIME_INF /\ sw_start w <= 50 /\ length sd = 6%nat) /\
  SupplySpec.landscape_ok SupplyTheorems.sm_route SupplyTheorems.sm_overcome SupplyTheorems.sm_holders SupplyTheorems.sm_stock
    SupplyTheorems.sm_vehicles SupplyTheorems.sm_bandwidth 10 /\ 0 <= 10 /\ 0 <= 50 /\ 50 + Z.of_nat 6 * (50 + Z.of_nat 6 * 10) < TIME_INF /\
  (forall n, NoDup (map fst (st_needs n)) /\
     forall m c, In (m, c) (st_needs n) -> c <= SupplyTheorems.sm_storage 2 m /\ SupplyTheorems.sm_material 2 m <> None).
Proof.
  repeat match goal with |- _ /\ _ => split end; try lia.
  - intros [|[|[|[|[|n]]]]]; simpl; (split; [repeat constructor; simpl; intuition lia|]); intros r Hr; simpl in Hr; repeat destruct Hr as [<-|Hr]; try contradiction; discriminate.
  - intros [|[|[|[|[|n]]]]]; simpl; intros E; try discriminate; reflexivity.
  - intros n [= <-]. reflexivity.
  - intros n _. unfold sx_spec. destruct (Nat.eqb n 4); reflexivity.
  - intros [|[|[|[|[|[|n]]]]]] c m E Hz Hm; cbn in E; injection E as <-; simpl in Hm; try contradiction; try (destruct Hm as [<-|[]]; reflexivity).
  - intros sd s x n w E Hin. vm_compute in E. injection E as <- _ _. simpl in Hin.
    repeat destruct Hin as [Hin|Hin]; try contradiction; injection Hin as <- <-; vm_compute; repeat split; discriminate.
  - apply SupplyTheorems.sm_landscape.
  - reflexivity.
  - intros [|[|[|[|[|n]]]]]; simpl; (split; [repeat constructor; simpl; intuition lia|]); intros m c Hm; simpl in Hm; repeat destruct Hm as [Hm|Hm]; try contradiction; injection Hm as <- <-; (split; [unfold SupplyTheorems.sm_storage; lia|discriminate]).
Qed.

(** ** Findings *)
(** The materials of a later work of a chain are first thought of when the chain is placed. If
    they come late, the chain takes longer than the gap that was found for it. A chain 1 - 2;
    work 2 needs materials, which take 18 to come; work 3, scheduled before it, has the only
    worker from 20 on. *)
Definition su_graph : graph :=
  Gr [Ed 0 1 0 FS; Ed 1 2 0 IFS; Ed 0 3 20 FS]
     (fun n => match n with 0 => WU true [] 0 | _ => WU false [Req 0 1 1 1] 1 end%nat).
Definition su_build workers needs zones :=
  land_build (SupplyTheorems.all_roads [0%nat]) (fun _ => 18) (SupplyTheorems.one_depot 1 100) (fun _ _ => 100) (fun _ => 1%nat)
    needs (fun _ _ => 0) zones su_graph sy_est st_optimize [Ct 0 [(0%nat, workers)]] (fun _ => WSpec [] [] None false)
    (SupplyModel.start_supply (fun _ _ => Some 1000) (fun _ => 1) (fun _ => 5) (fun _ _ => Some 0), zones_start zx_start) 0 [0; 3; 1]%nat.
Definition su_needs (n : nat) : SupplyModel.request := if Nat.eqb n 2 then [(0%nat, 60)] else [].
Theorem late_material_breaks_booking :
  su_build 1 su_needs (fun _ => []) = Crash /\ exists r, su_build 1 (fun _ => []) (fun _ => []) = Done r.
Proof. split; [vm_compute; reflexivity|]. eexists. vm_compute. reflexivity. Qed.
Print Assumptions late_material_breaks_booking.
(** With a second worker the booking of workers is accepted, and the zone timeline fails: the
    chain, which needs zone 0 open, reaches into the time in which work 3 has it closed. *)
Definition su_zones (n : nat) : list zreq := match n with 1%nat => [(0, 1)]%nat | 3%nat => [(0, 2)]%nat | _ => [] end.
Theorem late_material_breaks_zone :
  su_build 2 su_needs su_zones = Crash /\
  st_view (su_build 2 su_needs (fun _ => [])) = [(0%nat, 0, 0, 0%nat); (3%nat, 20, 25, 0%nat); (1%nat, 0, 5, 0%nat); (2%nat, 18, 23, 0%nat)] /\
  st_view (su_build 2 (fun _ => []) su_zones) = [(0%nat, 0, 0, 0%nat); (3%nat, 20, 25, 0%nat); (1%nat, 0, 5, 0%nat); (2%nat, 5, 10, 0%nat)].
Proof. vm_compute. auto. Qed.
Print Assumptions late_material_breaks_zone.
