(** C91: on a site with zones, the list scheduler fails only when a work has no contractor.
    Vocabulary: [ScheduleSpec], [able] and [spec_fits] of [ContractorTheorems] and
    [ScheduleSafe]. *)
From Coq Require Import ZArith List Bool Lia Arith ZifyBool ZifyNat.
From Verif Require Import TimeModel MomentumModel MomentumSpec MomentumHistory MomentumTeamProofs
  GraphModel ScheduleModel ScheduleSpec TeamProofs ContractorTheorems ScheduleProofs ScheduleInv SchedulePoolProofs ScheduleSafe ScheduleTheorems
  ZoneModel ZoneProofs ZoneTheorems SiteModel SiteProofs SiteZoneProofs SiteSupplyProofs SiteSafe SiteTheorems.
From Verif Require SupplyModel SupplySpec SupplyProofs4 SupplyTheorems.
Import ListNotations.
Local Open Scope Z_scope.

(** C91. No work needs materials; zones change their status for free (see
    [ZoneTheorems.zone_changed_in_use] for what a price does), works that need zones need
    workers, the first node needs none. Then either there is a schedule, and every work ends
    within [nodes * (longest execution + longest lag + 1)] of the start, or some work has no
    allowed contractor with enough workers. *)
Theorem site_schedule_never_crashes :
  forall g est route overcome holders storage platform needs cost zones start supply
         optimize cs spec apt D Lg nodes chains,
    contractors_ok cs -> estimator_ok est ->
    (forall n c sd s, optimizer_ok (optimize n c sd s)) ->
    optimizer_answers (site_times g est land (land_material_time route overcome holders storage platform needs) (land_zone_time cost zones))
      optimize (reqs_of g) cs spec apt ->
    (forall n, reqs_ok (reqs_of g n)) -> (forall n, 0 <= volume_of g n) -> (forall n, spec_ok (spec n)) ->
    0 <= apt <= TIME_INF ->
    chains_of g nodes = Some chains -> NoDup (concat chains) -> Z.of_nat (length nodes) < TIME_INF ->
    (forall e, In e (g_edges g) -> In (e_from e) (concat chains) -> In (e_to e) (concat chains) ->
       comes_before (concat chains) (e_from e) (e_to e)) ->
    (0 <= D /\ estimates_bounded g est cs spec D) -> (0 <= Lg /\ forall e, In e (g_edges g) -> e_lag e <= Lg) ->
    2 * (apt + Z.of_nat (length (concat chains)) * (D + Lg + 1)) < TIME_INF ->
    (forall n, sp_time (spec n) = None) -> (forall n, spec_fits cs (reqs_of g n) (spec n)) ->
    (forall n, u_service (g_unit g n) = true -> reqs_of g n = []) ->
    (forall n c m, chain_of g n = Some c -> In m c -> map r_kind (reqs_of g m) = map r_kind (reqs_of g n)) ->
    (forall n, needs n = []) ->
    (forall s q, s <> q -> cost s q = 0) ->
    (forall n, NoDup (map fst (zones n)) /\ forall r, In r (zones n) -> start (fst r) <> None) ->
    (forall n, reqs_of g n = [] -> zones n = []) ->
    (forall n, hd_error nodes = Some n -> zones n = []) ->
    let result := land_build route overcome holders storage platform needs cost zones g est optimize cs spec
                    (supply, zones_start start) apt nodes in
    (exists sd s, result = Done (sd, s) /\
       forall n w, In (n, w) sd -> sw_finish w <= apt + Z.of_nat (length (concat chains)) * (D + Lg + 1)) \/
    (result = NoContractor /\
     exists n, In n nodes /\
       forall ct, In ct cs -> (sp_contractors (spec n) = [] \/ In (ct_id ct) (sp_contractors (spec n))) ->
                  ~ able ct (u_reqs (g_unit g n))).
Proof.
  intros g est route overcome holders storage platform needs cost zones start supply optimize cs spec apt D Lg nodes chains
    Hcs Hest Hopt Hans Hreqs Hvol Hspec Hapt Hch Hnd Hlen Htopo HD HL Hinf Hnt Hfit Hsv Hsh Hneeds Hc0 Hz Hw Hf result.
  assert (R := site_loop_safe g est optimize cs spec apt D Lg route overcome holders storage platform needs cost zones start
    Hcs Hest Hopt Hans Hreqs Hspec Hapt Hvol HD HL Hnt Hfit Hsv Hsh Hneeds Hc0 Hz Hw
    nodes true [] chains [] (momentum_init (pool_of cs)) (supply, zones_start start) [] []).
  rename R into R'. specialize (R' (sinv_init g cs spec Hcs)).
  specialize (R' (fun _ => conj eq_refl (conj eq_refl Hf))).
  match type of R' with ?A -> ?B -> _ => assert (HA : A); [|assert (HB : B)] end.
  { split; [simpl; lia|]. split; [intros n w []|]. intros x Hx. simpl.
    assert (x = 0); [|lia]. unfold momentum_init in Hx. simpl in Hx. unfold all_times in Hx.
    rewrite map_map in Hx. simpl in Hx. apply in_concat in Hx as (l & Hl & Hx).
    apply in_map_iff in Hl as (y & <- & _). destruct Hx as [<-|[]]. reflexivity. }
  { split; [|intros o []]. intros z. unfold zones_start. cbn [snd]. destruct (start z) as [s0|]; [|reflexivity]. cbn. eexists. split; [reflexivity|].
    constructor; [repeat constructor|reflexivity|intros b []|intros b b' []]. }
  specialize (R' HA HB Hch). specialize (R' ltac:(simpl; rewrite (chains_of_length _ _ _ Hch); exact Hlen)).
  specialize (R' Hinf Hnd Htopo). unfold result, land_build.
  unfold site_build. destruct (build_loop _ _ _ _ _ _ _ _ _ _ _ _) as [[sd s]| |]; [left; eauto|right; eauto|contradiction].
Qed.
Print Assumptions site_schedule_never_crashes.

(** A case: the project of [sx_graph] with the zones of [st_zones] and no materials. *)
Example st_safe_hypotheses :
  (forall n c sd s, optimizer_ok (st_optimize n c sd s)) /\
  (forall find, optimizer_answers find st_optimize (reqs_of sx_graph) sx_contractors sx_spec 0) /\
  2 * (0 + Z.of_nat (length (concat sx_chains)) * (15 + 2 + 1)) < TIME_INF.
Proof.
  split; [intros; exact min_optimizer_ok|]. split; [|change TIME_INF with 2000000000; simpl; lia].
  intros find. apply min_optimizer_answers.
Qed.
(** The other hypotheses are those of [sx_hypotheses] and [st_hypotheses]; the schedule is that
    of [st_without_materials]: *)
Example st_safe_schedule : exists sd s, st_build (fun _ => []) st_zones sx_spec sx_nodes = Done (sd, s) /\
  forall n w, In (n, w) sd -> sw_finish w <= 0 + Z.of_nat (length (concat sx_chains)) * (15 + 2 + 1).
Proof.
  destruct sx_hypotheses as (X1 & X2 & X3 & X4 & X5 & X6 & X7 & X8 & X9 & X10 & X11 & X12 & X13 & X14 & X15 & X16 & X17 & X18 & X19).
  destruct st_hypotheses as (T1 & T2 & T3 & T4 & _). destruct st_safe_hypotheses as (S1 & S2 & S3).
  destruct (site_schedule_never_crashes sx_graph sx_est SupplyTheorems.sm_route SupplyTheorems.sm_overcome SupplyTheorems.sm_holders SupplyTheorems.sm_storage
    (fun _ => 2%nat) (fun _ => []) (fun _ _ => 0) st_zones zx_start SupplyTheorems.sm_start st_optimize sx_contractors sx_spec 0 15 2 sx_nodes sx_chains
    X1 X2 S1 (S2 _) X5 X6 X7 X8 X9 X10 X11 X12 X13 X14 S3 X16 X17 X18 X19 (fun _ => eq_refl) T1 T2 T3 T4) as [R|[R _]]; [exact R|].
  exfalso. revert R. vm_compute. discriminate.
Qed.
