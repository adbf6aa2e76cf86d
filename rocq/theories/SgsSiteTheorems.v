(** C107: the serial scheme of the genetic scheduler on a site with materials. Vocabulary:
    [SgsSpec], [ScheduleSpec], [SupplySpec]. *)
From Coq Require Import ZArith List Bool Lia Arith ZifyBool ZifyNat.
From Verif Require Import TimeModel MomentumModel JITModel MomentumSpec MomentumHistory MomentumTeamProofs
  GraphModel ScheduleModel ScheduleSpec TeamProofs ContractorTheorems ScheduleProofs ScheduleInv SchedulePoolProofs ScheduleSafe ScheduleTheorems
  ZoneModel ZoneProofs ZoneTheorems SiteModel SiteProofs SiteZoneProofs SiteSupplyProofs SiteTheorems
  SgsModel SgsSpec SgsSerial SgsTheorems SgsSiteModel SgsSite.
From Verif Require SupplyModel SupplySpec SupplyProofs4 SupplyTheorems.
Import ListNotations.
Local Open Scope Z_scope.

(** C107, workers. Whatever materials and zones the works need: what C55 says of a site without
    needs. [changes] is the part of the chromosome for zones. *)
Theorem site_serial_feasible :
  forall g est route overcome holders storage platform needs cost zones
         names cs nodes ch apt changes x0 heads chains sd start x,
    contractors_ok cs -> estimator_ok est -> NoDup names -> chromosome_ok ch ->
    (forall n, reqs_ok (u_reqs (g_unit g n))) -> (forall n, 0 <= u_volume (g_unit g n)) ->
    0 <= apt <= TIME_INF ->
    Forall2 (fun w n => nth_error nodes w = Some n) (ch_order ch) heads ->
    chains_of g heads = Some chains -> NoDup (concat chains) -> Z.of_nat (length heads) < TIME_INF ->
    (forall e, In e (g_edges g) -> In (e_from e) (concat chains) -> In (e_to e) (concat chains) ->
       comes_before (concat chains) (e_from e) (e_to e)) ->
    land_serial_decode route overcome holders storage platform needs cost zones g est names cs nodes ch apt changes x0
      = Some (sd, start, x) ->
    (* every work once, in this order *)
    map fst sd = rev (concat chains) /\
    (* proper intervals *)
    (forall n w, In (n, w) sd -> 0 <= sw_start w <= sw_finish w /\ sw_finish w <= TIME_INF) /\
    (* predecessors outside the chain *)
    (forall e wu wv, In e (g_edges g) -> In (e_from e, wu) sd -> In (e_to e, wv) sd ->
       ~ same_chain chains (e_from e) (e_to e) -> not_pinned (ch_spec ch) chains (e_to e) ->
       tadd (sw_finish wu) (e_lag e) <= sw_start wv) /\
    (* chains *)
    (forall c u v wu wv, In c chains -> comes_before c u v -> In (u, wu) sd -> In (v, wv) sd ->
       sw_finish wu <= sw_start wv /\ sw_team wu = sw_team wv /\ sw_contractor wu = sw_contractor wv) /\
    (* teams as the chromosome and the specification say *)
    (forall hd r n w, In (hd :: r) chains -> In n (hd :: r) -> In (n, w) sd ->
       gene_team g names cs nodes ch hd (sw_team w) (sw_contractor w)) /\
    (* never more workers than the border *)
    (forall ci c k a b t, nth_error cs ci = Some c -> In (k, a) (ct_workers c) -> border_for names (ch_borders ch) ci k b ->
       busy (schedule_bookings sd) (ct_id c, k) t <= b) /\
    (* the start of the schedule *)
    (forall n w, In (n, w) sd -> sw_team w <> [] -> start <= sw_start w) /\
    ((exists n w, In (n, w) sd /\ sw_team w <> [] /\ start = sw_start w) \/
     (start = apt /\ forall n w, In (n, w) sd -> sw_team w = [])).
Proof.
  intros g est route overcome holders storage platform needs cost zones names cs nodes ch apt changes x0 heads chains sd start x
    Hcs Hest Hnm Hch Hreqs Hvol Hapt Ho Hc Hnd Hlen Htopo H.
  unfold land_serial_decode, site_serial_decode in H. destruct (with_borders names ch 0 cs) as [bcs|] eqn:Eb; [|discriminate].
  destruct (site_serial_loop _ _ _ _ _ _ _ _ _ _ _ _ _ _ _ _ _) as [[sd' [s' x']]|] eqn:El; [|discriminate]. injection H as <- <- <-.
  destruct (serial_site_loop_inv g est land (land_material_time route overcome holders storage platform needs)
    (land_deliver route overcome holders storage platform needs) (land_zone_time cost zones) (land_occupy cost zones)
    (land_mat route overcome holders storage platform needs) (land_del route overcome holders storage platform needs) (land_zone cost zones) Hest
    names cs nodes ch apt bcs changes Hreqs Hvol Hapt Hch
    (ch_order ch) heads true [] chains [] (momentum_init (pool_of bcs)) x0 [] sd' s' x') as [h [[K M X L T TM P C] _]]; auto.
  { eapply serial_init; eauto. }
  { simpl. rewrite (chains_of_length _ _ _ Hc). exact Hlen. }
  simpl in *. do 5 (split; [assumption|]). split.
  - intros ci c k a b t Hci Hin Hb. apply (border_for_at _ _ _ _ _ Hnm) in Hb.
    assert (Hk : In k (map fst (ct_workers c))) by (apply in_map_iff; exists (k, a); auto).
    assert (Hcap := bordered_capacity names ch cs Hcs Hch bcs ci c k b Eb Hci Hk Hb).
    destruct (Z.ltb_spec t 0).
    + rewrite busy_before_zero; [|intros m w Hm; apply (T m w Hm)|assumption].
      apply border_at_for in Hb as (row & j & E1 & E2 & E3). destruct Hch as (_ & Hbb & _).
      eapply Hbb; eapply nth_error_In; eauto.
    + eapply Z.le_trans; [apply L|]. eapply minv_busy_le; eauto.
  - destruct (first_start_spec apt sd' None) as (A1 & _ & A3). split; [exact A1|].
    destruct A3 as [A3|[A3|(_ & A4 & A5)]]; [left; exact A3|discriminate|right; auto].
Qed.
Print Assumptions site_serial_feasible.

(** C107, materials: as C90 for the list scheduler. Every work starts at the very time of the
    answer of the supply timeline to the order of exactly the materials it needs; no depot
    gives out more than it had and no road carries more vehicles than it may. *)
Theorem site_serial_materials :
  forall g est route overcome holders storage platform needs cost zones zone0 stock vehicles bandwidth material round_trip horizon
         names cs nodes ch apt changes heads sd start x,
    contractors_ok cs -> estimator_ok est -> chromosome_ok ch ->
    (forall n, reqs_ok (reqs_of g n)) -> (forall n, 0 <= volume_of g n) ->
    0 <= apt <= TIME_INF ->
    Forall2 (fun w n => nth_error nodes w = Some n) (ch_order ch) heads ->
    SupplySpec.landscape_ok route overcome holders stock vehicles bandwidth round_trip -> 0 <= round_trip -> 0 <= horizon ->
    (forall n, NoDup (map fst (needs n)) /\
       forall m c, In (m, c) (needs n) -> c <= storage (platform n) m /\ material (platform n) m <> None) ->
    land_serial_decode route overcome holders storage platform needs cost zones g est names cs nodes ch apt changes
      (SupplyModel.start_supply stock vehicles bandwidth material, zone0) = Some (sd, start, x) ->
    (forall n w, In (n, w) sd -> sw_start w <= horizon) ->
    horizon + Z.of_nat (length sd) * (horizon + Z.of_nat (length sd) * round_trip) < TIME_INF ->
    exists answers,
      Forall2 (fun work e => SupplyModel.c_platform (fst (fst e)) = platform (fst work) /\
                             SupplyModel.c_needs (fst (fst e)) = needs (fst work) /\
                             SupplyModel.c_deadline (fst (fst e)) <= sw_start (snd work) /\
                             sw_start (snd work) = snd e /\
                             SupplySpec.answered route overcome holders e)
              (rev sd) answers /\
      (forall h m, SupplySpec.taken h m (SupplySpec.deliveries answers) <= match stock h m with Some n => n | None => 0 end) /\
      (forall r t, SupplySpec.traffic r (SupplySpec.deliveries answers) t <= bandwidth r).
Proof.
  intros g est route overcome holders storage platform needs cost zones zone0 stock vehicles bandwidth material round_trip horizon
    names cs nodes ch apt changes heads sd start x H1 H2 H3 H4 H5 H6 Ho HL Hrt Hh Hneeds H Hst Hinf.
  unfold land_serial_decode, site_serial_decode in H. destruct (with_borders names ch 0 cs) as [bcs|] eqn:Eb; [|discriminate].
  destruct (site_serial_loop _ _ _ _ _ _ _ _ _ _ _ _ _ _ _ _ _) as [[sd' [s' x']]|] eqn:El; [|discriminate]. injection H as <- <- <-.
  destruct (serial_site_history g est route overcome holders storage platform needs cost zones H2 names cs nodes ch apt changes H4 H5 H6 H3
    (ch_order ch) heads true [] (momentum_init (pool_of bcs)) _ _ _ _ (momentum_init_le _) (fun _ => eq_refl) Ho El)
    as (new & out & E & Eh & F). rewrite app_nil_r in E. cbn [fst] in Eh.
  eapply supplied_delivered; eauto.
Qed.
Print Assumptions site_serial_materials.

(** ** Without needs *)
Section Free.
  Variables (g : graph) (est : nat -> list worker -> Z).
  Variable route : Z -> nat -> nat -> list nat.
  Variable overcome : nat -> Z.
  Variable holders : nat -> list SupplyModel.depot.
  Variable storage : nat -> nat -> Z.
  Variable platform : nat -> nat.
  Variable needs : nat -> SupplyModel.request.
  Variable cost : nat -> nat -> Z.
  Variable zones : nat -> list zreq.
  Hypothesis Hneeds : forall n, needs n = [].
  Hypothesis Hzones : forall n, zones n = [].
  Let mtime := land_material_time route overcome holders storage platform needs.
  Let deliv := land_deliver route overcome holders storage platform needs.
  Let ztime := land_zone_time cost zones.
  Let occup := land_occupy cost zones.

  Lemma free_material x n t : - TIME_INF <= t <= TIME_INF -> mtime x n t = Some t.
  Proof. intros Ht. unfold mtime, land_material_time. rewrite Hneeds. cbn. rewrite set_time_in by exact Ht. reflexivity. Qed.
  Lemma free_zone x n t e : - TIME_INF <= t <= TIME_INF -> ztime x n t e = Some t.
  Proof. intros Ht. unfold ztime, land_zone_time. rewrite Hzones. cbn. rewrite set_time_in by exact Ht. reflexivity. Qed.
  Lemma repeat_until_first {A B} (f : A -> A + B) a r : f a = inr r -> forall b, repeat_until b f a = inr r.
  Proof.
    intros E. induction b as [b IH|b IH|]; cbn [repeat_until]; try rewrite E; try rewrite IH; reflexivity.
  Qed.

  Lemma free_find sd s x n team ind asg apt : 0 <= apt <= TIME_INF -> times_le s ->
    match asg with Some a => a <= TIME_INF | None => True end ->
    site_find g est land mtime ztime sd (s, x) n team ind asg apt = momentum_find g est sd s n team ind asg apt.
  Proof.
    intros Hapt Hs Ha. unfold site_find, momentum_find. destruct (chain_of g n) as [chain|]; [|reflexivity].
    destruct (parent_bound_range g sd asg apt n Hapt Ha) as [Hb _].
    destruct (chain_exec _ _ _ _ _ _ _) as [exec times]. destruct team as [|w team].
    - rewrite free_material, free_zone by (inf; lia). rewrite !tmax_spec, !Z.max_id. reflexivity.
    - destruct asg as [a|]; [reflexivity|].
      destruct (find_min_start_time (m_tl s) (w_contractor w) (chain_kinds g chain) ind (parent_bound g sd None apt n) exec (w :: team)) as [c|] eqn:E.
      + assert (E0 := E). assert (E' := E). apply find_min_start_min in E'. apply find_min_start_le in E; [|exact Hs|lia].
        rewrite (repeat_until_first _ _ (Some c)); [reflexivity|].
        unfold agree. rewrite E0, free_material, free_zone by (inf; lia). unfold tlt. rewrite !Z.ltb_irrefl. reflexivity.
      + rewrite (repeat_until_first _ _ None); [reflexivity|]. unfold agree. rewrite E. reflexivity.
  Qed.

  Lemma free_schedule sd s x n team c sp st apt : 0 <= apt <= TIME_INF -> times_le s -> st <= TIME_INF ->
    site_schedule g est land mtime deliv ztime occup sd (s, x) n team c sp (Some st) apt
    = option_map (fun r => (fst r, (snd r, x))) (momentum_schedule g est sd s n team c sp (Some st) apt).
  Proof.
    intros Hapt Hs Hst. unfold site_schedule, momentum_schedule. rewrite free_find by assumption.
    destruct (chain_of g n) as [chain|]; [|reflexivity].
    destruct (momentum_find _ _ _ _ _ _ _ _ _) as [[[st0 ft] times0]|]; [|reflexivity].
    unfold deliv. rewrite (place_nothing route overcome holders storage platform needs cost zones (fun _ => None)) by (intros m _; apply Hneeds).
    destruct (place_chain _ _ _ _ _ _) as [fin sd']. cbn [fst snd].
    destruct (update_timeline _ _ _ _) as [s'|]; [|reflexivity].
    unfold occup, land_occupy. rewrite Hzones. cbn. destruct x; reflexivity.
  Qed.

  Variables (names : list nat) (cs : list contractor) (nodes : list nat) (ch : chromosome) (apt : Z) (changes : list (list nat)).
  Hypothesis Hapt : 0 <= apt <= TIME_INF.
  Hypothesis Hchanges : forall w, In w (ch_order ch) -> nth_error changes w = Some [].

  Lemma free_loop : forall order first sd s x, incl order (ch_order ch) -> times_le s ->
    site_serial_loop g est names cs nodes ch apt land mtime deliv ztime occup changes first order sd (s, x)
    = option_map (fun r => (fst r, (snd r, x))) (serial_loop g est names cs nodes ch apt first order sd s).
  Proof.
    induction order as [|w order IH]; intros first sd s x Hi Hs; cbn [site_serial_loop serial_loop]; [reflexivity|].
    unfold site_serial_step, serial_step.
    destruct (nth_error nodes w) as [n|]; [|reflexivity]. destruct (nth_error (ch_rows ch) w) as [[amounts ci]|]; [|reflexivity].
    destruct (nth_error cs ci) as [ct|]; [|reflexivity]. destruct (serial_team _ _ _ _) as [t0|]; [|reflexivity].
    destruct (apply_spec _ _ t0) as [team|]; [|reflexivity]. rewrite free_find by (assumption || exact I).
    destruct (momentum_find _ _ _ _ _ _ _ _ _) as [[[st ft] times]|] eqn:Ef; [|reflexivity].
    assert (Hst := momentum_find_le _ _ _ _ _ _ _ _ _ _ _ Hapt Hs Ef).
    rewrite free_schedule by (try assumption; destruct first; lia).
    destruct (momentum_schedule _ _ _ _ _ _ _ _ _ _) as [[sd' s']|] eqn:Em; [|reflexivity]. cbn [option_map fst snd].
    unfold change_zones. rewrite (Hchanges w (Hi w (or_introl eq_refl))). cbn [zone_change_time].
    apply IH; [intros y Hy; apply Hi; right; exact Hy|].
    eapply momentum_schedule_le; [exact Hs| |exact Hapt|exact Em]. destruct first; lia.
  Qed.
End Free.

(** C107, a site that is not used: if no work needs materials or zones and there are no zones,
    the site does not matter and nothing happens to it. So C55, C56 and C57 hold on it. *)
Theorem site_serial_without_needs :
  forall g est route overcome holders storage platform needs cost zones names cs nodes ch apt changes x0,
    0 <= apt <= TIME_INF ->
    (forall n, needs n = []) -> (forall n, zones n = []) ->
    (forall w, In w (ch_order ch) -> nth_error changes w = Some []) ->
    land_serial_decode route overcome holders storage platform needs cost zones g est names cs nodes ch apt changes x0
    = match serial_decode g est names cs nodes ch apt with
      | Some (sd, start) => Some (sd, start, x0)
      | None => None
      end.
Proof.
  intros g est route overcome holders storage platform needs cost zones names cs nodes ch apt changes x0 Hapt Hn Hz Hc.
  unfold land_serial_decode, site_serial_decode, serial_decode. destruct (with_borders names ch 0 cs) as [bcs|]; [|reflexivity].
  rewrite free_loop; [|assumption..|apply incl_refl|apply momentum_init_le].
  destruct (serial_loop _ _ _ _ _ _ _ _ _ _ _) as [[sd s]|]; reflexivity.
Qed.
Print Assumptions site_serial_without_needs.

(** ** Zones *)
(** converter.py:61-62: the part for zones of an encoded schedule, with [k] zones: statuses 0
    everywhere. *)
Definition no_changes (works k : nat) : list (list nat) := repeat (repeat 0%nat k) works.

(** Finding: on a site that has a zone, whether or not a work needs it, the serial scheme
    raises for every chromosome made from a schedule, because the Momentum timeline does not
    return the finish of the work it schedules. *)
Theorem serial_scheme_fails_with_zones :
  forall g est route overcome holders storage platform needs cost zones names cs nodes ch apt x0 k,
    (0 < k)%nat -> ch_order ch <> [] ->
    land_serial_decode route overcome holders storage platform needs cost zones g est names cs nodes ch apt
      (no_changes (length (ch_order ch)) k) x0 = None.
Proof.
  intros g est route overcome holders storage platform needs cost zones names cs nodes ch apt x0 k Hk Ho.
  unfold land_serial_decode, site_serial_decode. destruct (with_borders _ _ _ _); [|reflexivity].
  destruct (ch_order ch) as [|w order] eqn:E; [congruence|]. cbn [site_serial_loop].
  unfold site_serial_step. destruct (nth_error nodes w); [|reflexivity]. destruct (nth_error (ch_rows ch) w) as [[am ci]|]; [|reflexivity].
  destruct (nth_error cs ci); [|reflexivity]. destruct (serial_team _ _ _ _); [|reflexivity]. destruct (apply_spec _ _ _); [|reflexivity].
  destruct (site_find _ _ _ _ _ _ _ _ _ _ _ _) as [[[st ft] ts]|]; [|reflexivity].
  destruct (site_schedule _ _ _ _ _ _ _ _ _ _ _ _ _ _ _) as [[sd' [s' x']]|]; [|reflexivity].
  unfold change_zones, no_changes. destruct (nth_error _ w) as [row|] eqn:En; [|reflexivity].
  apply nth_error_In, repeat_spec in En. subst row. destruct k; [lia|]. reflexivity.
Qed.
Print Assumptions serial_scheme_fails_with_zones.

(** ** A concrete case *)
(** The chromosome of [SgsTheorems] on the site of [SiteTheorems] without its zones. *)
Definition ss_decode k := land_serial_decode SupplyTheorems.sm_route SupplyTheorems.sm_overcome SupplyTheorems.sm_holders SupplyTheorems.sm_storage
  (fun _ => 2%nat) st_needs (fun _ _ => 0) (fun _ => []) sx_graph sx_est sg_names sx_contractors sg_nodes sg_ch 0
  (no_changes 5 k) (SupplyTheorems.sm_start, zones_start (fun z => if Nat.ltb z k then Some 1%nat else None)).
Example ss_schedule :
  match ss_decode 0 with
  | Some (sd, st, _) => (map (fun x => (fst x, sw_start (snd x), sw_finish (snd x), sw_contractor (snd x))) (rev sd), st)
  | None => ([], 0)
  end = ([(0%nat, 0, 0, 0%nat); (1%nat, 4, 15, 1%nat); (2%nat, 15, 27, 1%nat);
          (3%nat, 5, 13, 0%nat); (4%nat, 27, 36, 1%nat); (5%nat, 36, 36, 0%nat)], 4).
Proof. vm_compute. reflexivity. Qed.
(** The hypotheses that [sx_hypotheses], [sg_hypotheses] and [st_hypotheses] do not show. *)
Example ss_hypotheses : forall sd start x, ss_decode 0 = Some (sd, start, x) ->
  (forall n w, In (n, w) sd -> sw_start w <= 50) /\ 50 + Z.of_nat (length sd) * (50 + Z.of_nat (length sd) * 10) < TIME_INF.
Proof.
  intros sd start x E. vm_compute in E. injection E as <- _ _. split; [|reflexivity].
  intros n w Hin. simpl in Hin. repeat destruct Hin as [Hin|Hin]; try contradiction; injection Hin as <- <-; vm_compute; discriminate.
Qed.
(** One zone, which no work needs: *)
Example ss_with_zone : ss_decode 1 = None.
Proof. vm_compute. reflexivity. Qed.
