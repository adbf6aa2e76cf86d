(** C108: the parallel scheme of the genetic scheduler on a site with materials and zones.
    Vocabulary: [SgsSpec], [ScheduleSpec], [SupplySpec], [conflict] of [ZoneProofs]. *)
From Coq Require Import ZArith List Bool Lia Arith ZifyBool ZifyNat Permutation.
From Verif Require Import TimeModel MomentumModel JITModel MomentumSpec MomentumHistory MomentumTeamProofs
  GraphModel ScheduleModel ScheduleSpec TeamProofs ContractorTheorems ScheduleProofs ScheduleInv SchedulePoolProofs ScheduleSafe ScheduleTheorems
  ZoneModel ZoneProofs ZoneTheorems SiteModel SiteProofs SiteZoneProofs SiteSupplyProofs SiteTheorems
  JitSiteModel JitSiteProofs JitSiteZone SgsModel SgsSpec SgsSerial SgsParallel SgsTheorems SgsParallelTheorems SgsLandModel SgsLand.
From Verif Require SupplyModel SupplySpec SupplyProofs4 SupplyTheorems.
Import ListNotations.
Local Open Scope Z_scope.

(** C108, workers. Whatever the site answers (times within infinity), what C58 says of a site
    without needs. The first work is not refused by the site. *)
Theorem site_parallel_feasible :
  forall g est names cs nodes ch apt (site : Type) material_time deliver zone_time occupy moment (x0 : site) heads chains fuel rest s,
    (forall x n t r, material_time x n t = Some r -> r <= TIME_INF) ->
    (forall x n t r x', deliver x n t = Some (r, x') -> r <= TIME_INF) ->
    (forall x n t e r, zone_time x n t e = Some r -> - TIME_INF <= r <= TIME_INF) ->
    contractors_ok cs -> estimator_ok est -> NoDup names -> chromosome_ok ch ->
    (forall n, 0 <= u_volume (g_unit g n)) -> 0 <= apt <= TIME_INF ->
    Forall2 (fun w n => nth_error nodes w = Some n) (ch_order ch) heads ->
    chains_of g heads = Some chains -> NoDup (concat chains) ->
    (forall n amounts ci k a b, gene nodes ch n amounts ci -> row_amount names amounts k a ->
       border_for names (ch_borders ch) ci k b -> a <= b) ->
    (forall n amounts ci k a m, gene nodes ch n amounts ci -> row_amount names amounts k a -> 0 < a ->
       spec_count (ch_spec ch n) (u_reqs (g_unit g n)) k m -> m <= a) ->
    (forall hd r l n q, chains = (hd :: r) :: l -> sp_independent (ch_spec ch hd) = false ->
       In n (hd :: r) -> In q (parents g n) -> In q (hd :: r)) ->
    (forall c e, In c chains -> In e (g_edges g) -> In (e_from e) c -> In (e_to e) c -> comes_before c (e_from e) (e_to e)) ->
    (forall n t e, hd_error heads = Some n -> moment x0 n t e <> Some false) ->
    site_parallel_decode g est names cs nodes ch apt site material_time deliver zone_time occupy moment x0 fuel = SFinished rest s ->
    (* no work twice, and every work is placed or reported as not placed *)
    NoDup (map fst (ss_sched s)) /\
    (forall n, In n (concat chains) <->
       In n (map fst (ss_sched s)) \/ exists q c, In q rest /\ chain_of g (pw_node q) = Some c /\ In n c) /\
    (* proper intervals *)
    (forall n w, In (n, w) (ss_sched s) -> 0 <= sw_start w <= sw_finish w /\ sw_finish w <= TIME_INF) /\
    (* the predecessors of works that are not independent are placed and finish before *)
    (forall e hd r wv, In e (g_edges g) -> is_dependency (e_type e) = true -> In (hd :: r) chains -> In (e_to e) (hd :: r) ->
       sp_independent (ch_spec ch hd) = false -> In (e_to e, wv) (ss_sched s) ->
       exists wu, In (e_from e, wu) (ss_sched s) /\ tadd (sw_finish wu) (e_lag e) <= sw_start wv) /\
    (* chains *)
    (forall c u v wu wv, In c chains -> comes_before c u v -> In (u, wu) (ss_sched s) -> In (v, wv) (ss_sched s) ->
       sw_finish wu <= sw_start wv /\ sw_team wu = sw_team wv /\ sw_contractor wu = sw_contractor wv) /\
    (* teams as the chromosome and the specification say *)
    (forall hd r n w, In (hd :: r) chains -> In n (hd :: r) -> In (n, w) (ss_sched s) ->
       parallel_gene_team g names cs nodes ch hd (sw_team w) (sw_contractor w)) /\
    (* never more workers than the border *)
    (forall ci c k a b t, nth_error cs ci = Some c -> In (k, a) (ct_workers c) -> border_for names (ch_borders ch) ci k b ->
       busy (schedule_bookings (ss_sched s)) (ct_id c, k) t <= b) /\
    (* a work outside of chains lasts as long as specified or as the estimator says for the team of the row *)
    (forall n w, In (n, w) (ss_sched s) -> chain_of g n = Some [n] -> inseparable_parent g n = None ->
      exists tm, row_team names cs nodes ch n tm /\
        sw_finish w = tadd (sw_start w) (match sp_time (ch_spec ch n) with Some t => t | None => est n tm end)).
Proof.
  intros g est names cs nodes ch apt site mt dl zt oc mo x0 heads chains fuel rest s Hm Hd Hz Hcs Hest Hnm Hch Hvol Hapt Ho Hc Hnd Hrow Hspc Hf Hin Hmo H.
  destruct (site_decode_whole g est names cs nodes ch apt site mt dl zt oc mo x0 heads chains fuel rest s (fun _ _ => True) (fun _ => True)
    Hm Hd Hz Hcs Hest Hnm Hch Hvol Hapt Ho Hc Hnd Hrow Hspc Hf Hmo) as (bcs & ch' & Hb & HB & _); auto.
  eapply pbase_feasible; eauto.
Qed.
Print Assumptions site_parallel_feasible.

Section Refuse.
  Variables (route : Z -> nat -> nat -> list nat) (overcome : nat -> Z) (holders : nat -> list SupplyModel.depot) (storage : nat -> nat -> Z)
            (platform : nat -> nat) (needs : nat -> SupplyModel.request) (cost : nat -> nat -> Z) (zones : nat -> list zreq).
  Lemma land_first_free x0 n t e : needs n = [] -> zones n = [] ->
    land_moment route overcome holders storage platform needs cost zones x0 n t e <> Some false.
  Proof. intros En Ez. unfold land_moment. rewrite En, Ez. discriminate. Qed.
End Refuse.

(** C108, materials: as C96 for the list scheduler. Every work starts at the very time of the
    answer of the supply timeline to the order of exactly the materials it needs; no depot
    gives out more than it had and no road carries more vehicles than it may. *)
Theorem site_parallel_materials :
  forall g est route overcome holders storage platform needs cost zones zone0 stock vehicles bandwidth material round_trip horizon
         names cs nodes ch apt heads chains fuel rest s,
    contractors_ok cs -> estimator_ok est -> NoDup names -> chromosome_ok ch ->
    (forall n, 0 <= u_volume (g_unit g n)) -> 0 <= apt <= TIME_INF ->
    Forall2 (fun w n => nth_error nodes w = Some n) (ch_order ch) heads ->
    chains_of g heads = Some chains -> NoDup (concat chains) ->
    (forall n amounts ci k a b, gene nodes ch n amounts ci -> row_amount names amounts k a ->
       border_for names (ch_borders ch) ci k b -> a <= b) ->
    (forall n amounts ci k a m, gene nodes ch n amounts ci -> row_amount names amounts k a -> 0 < a ->
       spec_count (ch_spec ch n) (u_reqs (g_unit g n)) k m -> m <= a) ->
    (forall hd r l n q, chains = (hd :: r) :: l -> sp_independent (ch_spec ch hd) = false ->
       In n (hd :: r) -> In q (parents g n) -> In q (hd :: r)) ->
    (forall n, hd_error heads = Some n -> needs n = [] /\ zones n = []) ->
    SupplySpec.landscape_ok route overcome holders stock vehicles bandwidth round_trip -> 0 <= round_trip -> 0 <= horizon ->
    (forall n, NoDup (map fst (needs n)) /\
       forall m c, In (m, c) (needs n) -> c <= storage (platform n) m /\ material (platform n) m <> None) ->
    land_parallel_decode route overcome holders storage platform needs cost zones g est names cs nodes ch apt
      (SupplyModel.start_supply stock vehicles bandwidth material, zone0) fuel = SFinished rest s ->
    (forall n w, In (n, w) (ss_sched s) -> sw_start w <= horizon) ->
    horizon + Z.of_nat (length (ss_sched s)) * (horizon + Z.of_nat (length (ss_sched s)) * round_trip) < TIME_INF ->
    exists answers,
      Forall2 (fun work e => SupplyModel.c_platform (fst (fst e)) = platform (fst work) /\
                             SupplyModel.c_needs (fst (fst e)) = needs (fst work) /\
                             SupplyModel.c_deadline (fst (fst e)) <= sw_start (snd work) /\
                             sw_start (snd work) = snd e /\
                             SupplySpec.answered route overcome holders e)
              (rev (ss_sched s)) answers /\
      (forall h m, SupplySpec.taken h m (SupplySpec.deliveries answers) <= match stock h m with Some n => n | None => 0 end) /\
      (forall r t, SupplySpec.traffic r (SupplySpec.deliveries answers) t <= bandwidth r).
Proof.
  intros g est route overcome holders storage platform needs cost zones zone0 stock vehicles bandwidth material round_trip horizon
    names cs nodes ch apt heads chains fuel rest s Hcs Hest Hnm Hch Hvol Hapt Ho Hc Hnd Hrow Hspc Hf Hfree HL Hrt Hh Hneeds H Hst Hinf.
  destruct (site_decode_whole g est names cs nodes ch apt land
    (land_material_time route overcome holders storage platform needs) (land_deliver route overcome holders storage platform needs)
    (land_zone_time cost zones) (land_occupy cost zones) (land_moment route overcome holders storage platform needs cost zones)
    (SupplyModel.start_supply stock vehicles bandwidth material, zone0) heads chains fuel rest s
    (fun _ s => supply_inv route overcome holders storage platform needs (SupplyModel.start_supply stock vehicles bandwidth material) s) (fun _ => True)
    (land_mat route overcome holders storage platform needs) (land_del route overcome holders storage platform needs) (land_zone_range cost zones)
    Hcs Hest Hnm Hch Hvol Hapt Ho Hc Hnd Hrow Hspc Hf) as (bcs & ch' & _ & _ & new & out & E & Eh & F); auto.
  - intros n t e Hn. destruct (Hfree n Hn). apply land_first_free; assumption.
  - intros tl. exists [], []. repeat split; constructor.
  - intros t q chs s1 s2 c team st fin new HI _ HC. eapply supply_step; [exact (fun _ => None)|exact Hest|exact Hvol|exact HI|exact HC].
  - eapply supplied_delivered; eauto.
Qed.
Print Assumptions site_parallel_materials.

(** C108, zones: works of the schedule that need different statuses of a zone do not overlap.
    The zones of a chain are those of its first work. Changing a status takes no time; the first
    work needs no zones; a work with zones is not independent (line 148 of the timeline asks an
    independent work for nothing but workers), no work of its chain needs materials, the lags
    inside its chain are not positive and its later works wait for nobody outside the chain;
    nothing takes half of infinity. *)
Theorem site_parallel_zones :
  forall g est route overcome holders storage platform needs cost zones start stock vehicles bandwidth material
         names cs nodes ch apt heads chains fuel rest s,
    contractors_ok cs -> estimator_ok est -> NoDup names -> chromosome_ok ch ->
    (forall n, 0 <= u_volume (g_unit g n)) -> 0 <= apt <= TIME_INF ->
    Forall2 (fun w n => nth_error nodes w = Some n) (ch_order ch) heads ->
    chains_of g heads = Some chains -> NoDup (concat chains) ->
    (forall n amounts ci k a b, gene nodes ch n amounts ci -> row_amount names amounts k a ->
       border_for names (ch_borders ch) ci k b -> a <= b) ->
    (forall n amounts ci k a m, gene nodes ch n amounts ci -> row_amount names amounts k a -> 0 < a ->
       spec_count (ch_spec ch n) (u_reqs (g_unit g n)) k m -> m <= a) ->
    (forall hd r l n q, chains = (hd :: r) :: l -> sp_independent (ch_spec ch hd) = false ->
       In n (hd :: r) -> In q (parents g n) -> In q (hd :: r)) ->
    (forall n, hd_error heads = Some n -> needs n = [] /\ zones n = []) ->
    (forall s q, s <> q -> cost s q = 0) ->
    (forall n, NoDup (map fst (zones n)) /\ forall r, In r (zones n) -> start (fst r) <> None) ->
    (forall n, zones n <> [] -> sp_independent (ch_spec ch n) = false) ->
    (forall n c m, chain_of g n = Some c -> zones n <> [] -> In m c -> needs m = []) ->
    (forall n c e, chain_of g n = Some c -> zones n <> [] -> In e (g_edges g) -> In (e_from e) c -> In (e_to e) c -> e_lag e <= 0) ->
    (forall n c e, chain_of g n = Some c -> zones n <> [] -> In e (g_edges g) -> In (e_to e) c -> e_to e <> n -> In (e_from e) c) ->
    land_parallel_decode route overcome holders storage platform needs cost zones g est names cs nodes ch apt
      (SupplyModel.start_supply stock vehicles bandwidth material, zones_start start) fuel = SFinished rest s ->
    (forall n w, In (n, w) (ss_sched s) -> 2 * sw_finish w < TIME_INF) ->
    forall u cu v cv z q q', In (u :: cu) chains -> In (v :: cv) chains ->
      In (z, q) (zones u) -> In (z, q') (zones v) -> conflict q q' ->
      (forall n w m w', In n (u :: cu) -> In (n, w) (ss_sched s) -> In m (v :: cv) -> In (m, w') (ss_sched s) -> sw_finish w <= sw_start w') \/
      (forall n w m w', In n (u :: cu) -> In (n, w) (ss_sched s) -> In m (v :: cv) -> In (m, w') (ss_sched s) -> sw_finish w' <= sw_start w).
Proof.
  intros g est route overcome holders storage platform needs cost zones start stock vehicles bandwidth material
    names cs nodes ch apt heads chains fuel rest s Hcs Hest Hnm Hch Hvol Hapt Ho Hc Hnd Hrow Hspc Hf Hfree Hc0 Hz Hind Hnn Hnl Hinn H Hfin.
  destruct (site_decode_whole g est names cs nodes ch apt land
    (land_material_time route overcome holders storage platform needs) (land_deliver route overcome holders storage platform needs)
    (land_zone_time cost zones) (land_occupy cost zones) (land_moment route overcome holders storage platform needs cost zones)
    (SupplyModel.start_supply stock vehicles bandwidth material, zones_start start) heads chains fuel rest s
    (zone_inv zones start) (fun n => zones n = [])
    (land_mat route overcome holders storage platform needs) (land_del route overcome holders storage platform needs) (land_zone_range cost zones)
    Hcs Hest Hnm Hch Hvol Hapt Ho Hc Hnd Hrow Hspc Hf) as (bcs & placed & _ & HB & HZ); auto.
  - intros n t e Hn. destruct (Hfree n Hn). apply land_first_free; assumption.
  - intros n Hn. apply (Hfree n Hn).
  - intros tl _. exists [], 0. constructor; cbn [fst snd].
    + apply SupplyProofs4.start_plat.
    + intros z. unfold zones_start. cbn [ss_tl snd]. destruct (start z) as [s0|]; [|reflexivity]. cbn. eexists. split; [reflexivity|].
      constructor; [repeat constructor|reflexivity|intros b []|intros b b' []].
    + split; [lia|reflexivity].
    + intros o [].
    + intros hd r z q [].
  - intros t q chs s1 s2 c team st fin new HI H0 HC. eapply zone_step; eauto.
  - destruct (HZ Hfin) as (occ & HH & [_ OW _ _ OK]).
    intros u cu v cv z q q' Hu Hv Hzu Hzv Hcf.
    destruct HB as (left & h & HI & _ & _ & _ & Hperm & _).
    assert (Hplaced : forall c n w, In c chains -> In n c -> In (n, w) (ss_sched s) -> In c placed).
    { intros c n w Hcin Hn Hw. apply (Permutation_in _ (Permutation_sym Hperm)) in Hcin. apply in_app_or in Hcin as [?|Hcin]; [assumption|].
      exfalso. assert (Hperm' := concat_perm _ _ Hperm). rewrite concat_app in Hperm'.
      eapply (nodup_app_disj _ _ n (Permutation_NoDup (Permutation_sym Hperm') Hnd)); [|apply in_concat; eauto].
      apply in_sd_key in Hw. rewrite (JitScheduleInv.j_keys _ _ _ _ _ _ _ HI) in Hw. apply in_rev in Hw. exact Hw. }
    destruct (in_dec (list_eq_dec Nat.eq_dec) (u :: cu) placed) as [Pu|Pu].
    2: { left. intros n w m w' N1 N2 M1 M2. exfalso. apply Pu. eapply Hplaced; eauto. }
    destruct (in_dec (list_eq_dec Nat.eq_dec) (v :: cv) placed) as [Pv|Pv].
    2: { left. intros n w m w' N1 N2 M1 M2. exfalso. apply Pv. eapply (Hplaced _ m); eauto. }
    destruct (OK u cu z q Pu Hzu) as (i & lo & hi & Ho1 & Hbu). destruct (OK v cv z q' Pv Hzv) as (i' & lo' & hi' & Ho' & Hbv).
    specialize (OW z).
    assert (B1 : In (Bk i q lo hi) (zbook z occ)) by (apply zbook_in; eexists; split; [exact Ho1|split; reflexivity]).
    assert (B2 : In (Bk i' q' lo' hi') (zbook z occ)) by (apply zbook_in; eexists; split; [exact Ho'|split; reflexivity]).
    destruct (start z) as [s0|] eqn:Es.
    + destruct OW as (l & El & I0). destruct (zi_free _ _ _ _ I0 _ _ B1 B2 Hcf) as [F|F]; apply klt_time in F; cbn in F; [left|right];
        intros n w m w' N1 N2 M1 M2; destruct (Hbu n w N1 N2), (Hbv m w' M1 M2); lia.
    + exfalso. apply (proj2 (Hz u) (z, q) Hzu). exact Es.
Qed.
Print Assumptions site_parallel_zones.

(** ** Without needs *)
Section Free.
  Variables (g : graph) (est : nat -> list worker -> Z).
  Variable route : Z -> nat -> nat -> list nat.
  Variable overcome : nat -> Z.
  Variable holders : nat -> list SupplyModel.depot.
  Variable storage : nat -> nat -> Z.
  Variable platform : nat -> nat.
  Variable needs : nat -> SupplyModel.request.
  Variable cost : nat -> nat -> Z.
  Variable zones : nat -> list zreq.
  Hypothesis Hneeds : forall n, needs n = [].
  Hypothesis Hzones : forall n, zones n = [].
  Variables (ch : chromosome) (apt : Z) (total : nat) (x0 : land).
  Hypothesis Hapt : 0 <= apt <= TIME_INF.
  Let mtime := land_material_time route overcome holders storage platform needs.
  Let deliv := land_deliver route overcome holders storage platform needs.
  Let ztime := land_zone_time cost zones.
  Let occup := land_occupy cost zones.
  Let mom := land_moment route overcome holders storage platform needs cost zones.

  Definition on_land (s : pstate) : sstate land := SS (ps_sched s) (ps_tl s, x0) (ps_times s).
  Definition times_fine (s : pstate) : Prop := Forall (fun t => t <= TIME_INF) (ps_times s).

  Lemma free_try t q s : t <= TIME_INF ->
    site_try_work g est ch apt total land mtime deliv ztime occup mom t q (on_land s) = option_map (option_map on_land) (try_work g est ch apt total t q s).
  Proof.
    intros Ht. unfold site_try_work, try_work, site_can_schedule, on_land. cbn [ss_sched ss_tl ss_times fst snd].
    destruct (jit_can_schedule _ _ _ _ _ _ _) as [[|]|]; [|reflexivity|reflexivity].
    assert (E : (if sp_independent (ch_spec ch (pw_node q)) then Some true else mom x0 (pw_node q) t (pw_exec q)) = Some true).
    { unfold mom, land_moment. rewrite Hneeds, Hzones. destruct (sp_independent _); reflexivity. }
    rewrite E. destruct (apply_spec _ _ _) as [team|]; [|reflexivity].
    unfold jsite_schedule, jit_schedule. set (st := if Nat.eqb (S (pw_pos q)) total then _ else _).
    assert (Hst : st <= TIME_INF).
    { unfold st. destruct (Nat.eqb _ _); [rewrite tmax_spec; inf; lia|]. destruct (Nat.eqb _ _); lia. }
    clearbody st. destruct (chain_of g (pw_node q)) as [c|]; [|reflexivity]. cbn [sp_time sp_independent].
    unfold deliv. rewrite (jplace_nothing g est route overcome holders storage platform needs cost zones (fun _ => None)) by (try exact Hst; intros m _; apply Hneeds).
    destruct (jit_place _ _ _ _ _ _ _ _) as [[fin sd']|]; [|reflexivity].
    destruct (jit_update _ _ _ _) as [tl'|]; [|reflexivity]. unfold occup, land_occupy. rewrite Hzones. cbn. destruct x0; reflexivity.
  Qed.
  Lemma free_try_times t q s s' : t <= TIME_INF -> times_fine s -> try_work g est ch apt total t q s = Some (Some s') -> times_fine s'.
  Proof.
    intros Ht Hs H. unfold try_work in H. destruct (jit_can_schedule _ _ _ _ _ _ _) as [[|]|]; try discriminate.
    destruct (apply_spec _ _ _) as [team|]; [|discriminate]. destruct (jit_schedule _ _ _ _ _ _ _ _ _ _) as [[sd' tl']|]; [|discriminate].
    injection H as <-. unfold times_fine in *. cbn [ps_times]. rewrite Forall_forall in *. intros y Hy. apply add_time_in in Hy as [->|Hy]; [apply set_time_range|].
    apply add_time_in in Hy as [->|Hy]; [|auto]. repeat match goal with |- context [if ?b then _ else _] => destruct b end; rewrite ?tmax_spec; inf; lia.
  Qed.
  Lemma free_all t : t <= TIME_INF -> forall l s, times_fine s ->
    site_try_all g est ch apt total land mtime deliv ztime occup mom t l (on_land s)
    = option_map (fun r => (fst r, on_land (snd r))) (try_all g est ch apt total t l s) /\
    (forall l' s', try_all g est ch apt total t l s = Some (l', s') -> times_fine s').
  Proof.
    intros Ht. induction l as [|q l IH]; intros s Hs; cbn [site_try_all try_all]; [split; [reflexivity|intros l' s' [= _ <-]; exact Hs]|].
    rewrite free_try by exact Ht. destruct (try_work g est ch apt total t q s) as [[s1|]|] eqn:E; cbn [option_map].
    - apply IH. eapply free_try_times; eauto.
    - destruct (IH s Hs) as [-> B]. destruct (try_all _ _ _ _ _ _ l s) as [[l1 s1]|] eqn:Ea; cbn [option_map fst snd]; (split; [reflexivity|]); [|discriminate].
      intros l' s' [= _ <-]. eapply B; reflexivity.
    - split; [reflexivity|discriminate].
  Qed.
  Lemma free_loop : forall fuel ckpt start prev l s, times_fine s ->
    site_parallel_loop g est ch apt total land mtime deliv ztime occup mom fuel ckpt start prev l (on_land s)
    = match parallel_loop g est ch apt total fuel ckpt start prev l s with
      | Finished r s' => SFinished r (on_land s') | Raised => SRaised | Looping => SLooping end.
  Proof.
    induction fuel as [|fuel IH]; intros ckpt start prev l s Hs; cbn [site_parallel_loop parallel_loop]; [reflexivity|].
    destruct l as [|q l]; [reflexivity|]. change (ss_times (on_land s)) with (ps_times s).
    destruct (nth_error (ps_times s) ckpt) as [t|] eqn:En.
    - destruct (prev =? t); [apply IH; exact Hs|]. destruct (is_inf t); [reflexivity|].
      assert (Ht : t <= TIME_INF) by (apply nth_error_In in En; unfold times_fine in Hs; rewrite Forall_forall in Hs; auto).
      destruct (free_all t Ht (q :: l) s Hs) as [A B]. rewrite A.
      destruct (try_all _ _ _ _ _ _ _ _) as [[l' s']|]; [|reflexivity]. cbn [option_map fst snd]. apply IH. eapply B; reflexivity.
    - assert (Ht : tadd start 1 <= TIME_INF) by apply set_time_range.
      destruct (free_all _ Ht (q :: l) s Hs) as [A B]. rewrite A.
      destruct (try_all _ _ _ _ _ _ _ _) as [[l' s']|]; [|reflexivity]. cbn [option_map fst snd]. apply IH. eapply B; reflexivity.
  Qed.
End Free.

(** C108, a site that is not used: if no work needs materials or zones, the site does not
    matter and nothing happens to it. So C58 and C59 hold on it. *)
Theorem site_parallel_without_needs :
  forall g est route overcome holders storage platform needs cost zones names cs nodes ch apt x0 fuel,
    0 <= apt <= TIME_INF ->
    (forall n, needs n = []) -> (forall n, zones n = []) ->
    land_parallel_decode route overcome holders storage platform needs cost zones g est names cs nodes ch apt x0 fuel
    = match parallel_decode g est names cs nodes ch apt fuel with
      | Finished rest s => SFinished rest (SS (ps_sched s) (ps_tl s, x0) (ps_times s))
      | Raised => SRaised
      | Looping => SLooping
      end.
Proof.
  intros g est route overcome holders storage platform needs cost zones names cs nodes ch apt x0 fuel Hapt Hn Hz.
  unfold land_parallel_decode, site_parallel_decode, parallel_decode. destruct (with_borders names ch 0 cs) as [bcs|]; [|reflexivity].
  destruct (decode_works _ _ _ _ _ _ _ _) as [works|]; [|reflexivity].
  apply (free_loop g est route overcome holders storage platform needs cost zones Hn Hz ch apt _ x0 Hapt _ _ _ _ _ (PS [] (jit_init (pool_of bcs)) [0])).
  constructor; [inf; cbn; lia|constructor].
Qed.
Print Assumptions site_parallel_without_needs.

(** ** A concrete case *)
(** The chromosome of [SgsTheorems] on the site of [SiteTheorems] / [JitSiteTheorems]. *)
Definition pl_needs (n : nat) : SupplyModel.request := match n with 4%nat => [(0%nat, 30)] | _ => [] end.
Definition pl_zones (n : nat) : list zreq :=
  match n with 1%nat => [(0, 1)]%nat | 3%nat => [(0, 2); (1, 1)]%nat | _ => [] end.
Definition pl_decode ch needs zones := land_parallel_decode SupplyTheorems.sm_route SupplyTheorems.sm_overcome SupplyTheorems.sm_holders SupplyTheorems.sm_storage
  (fun _ => 2%nat) needs (fun _ _ => 0) zones sx_graph sx_est sg_names sx_contractors sg_nodes ch 0
  (SupplyTheorems.sm_start, zones_start zx_start) 100.
Definition pl_view (r : sresult land) :=
  match r with
  | SFinished l s => (length l, map (fun x => (fst x, sw_start (snd x), sw_finish (snd x), sw_contractor (snd x))) (rev (ss_sched s)))
  | _ => (99%nat, [])
  end.
Example pl_schedule : pl_view (pl_decode sg_ch pl_needs pl_zones) =
  (0%nat, [(0%nat, 0, 0, 0%nat); (1%nat, 0, 11, 1%nat); (2%nat, 11, 23, 1%nat);
           (3%nat, 23, 31, 0%nat); (4%nat, 32, 41, 1%nat); (5%nat, 41, 41, 0%nat)]).
Proof. vm_compute. reflexivity. Qed.
(** With the materials of works 1, 3 and 4 the chain waits until 4. *)
Example pl_materials : pl_view (pl_decode sg_ch st_needs (fun _ => [])) =
  (0%nat, [(0%nat, 0, 0, 0%nat); (1%nat, 4, 15, 1%nat); (2%nat, 15, 27, 1%nat);
           (3%nat, 4, 12, 0%nat); (4%nat, 27, 36, 1%nat); (5%nat, 36, 36, 0%nat)]).
Proof. vm_compute. reflexivity. Qed.
(** The hypotheses that [sx_hypotheses], [sg_hypotheses], [sg_parallel_hypotheses] and
    [st_hypotheses] do not show. *)
Example pl_hypotheses :
  (forall hd r l n q, sx_chains = (hd :: r) :: l -> sp_independent (ch_spec sg_ch hd) = false ->
       In n (hd :: r) -> In q (parents sx_graph n) -> In q (hd :: r)) /\
  (forall n, hd_error sx_nodes = Some n -> st_needs n = [] /\ pl_needs n = [] /\ pl_zones n = []) /\
  (forall n, NoDup (map fst (pl_zones n)) /\ forall r, In r (pl_zones n) -> zx_start (fst r) <> None) /\
  (forall n, pl_zones n <> [] -> sp_independent (ch_spec sg_ch n) = false) /\
  (forall n c m, chain_of sx_graph n = Some c -> pl_zones n <> [] -> In m c -> pl_needs m = []) /\
  (forall n c e, chain_of sx_graph n = Some c -> pl_zones n <> [] -> In e (g_edges sx_graph) -> In (e_from e) c -> In (e_to e) c -> e_lag e <= 0) /\
  (forall n c e, chain_of sx_graph n = Some c -> pl_zones n <> [] -> In e (g_edges sx_graph) -> In (e_to e) c -> e_to e <> n -> In (e_from e) c) /\
  (forall needs zones rest s n w, (needs = pl_needs /\ zones = pl_zones) \/ (needs = st_needs /\ zones = fun _ => []) ->
     pl_decode sg_ch needs zones = SFinished rest s -> In (n, w) (ss_sched s) ->
     2 * sw_finish w < TIME_INF /\ sw_start w <= 50 /\ length (ss_sched s) = 6%nat).
Proof.
  repeat match goal with |- _ /\ _ => split end.
  - intros hd r l n q E _ Hn Hq. injection E as <- <- _. destruct Hn as [<-|[]]. destruct Hq.
  - intros n [= <-]. auto.
  - intros [|[|[|[|n]]]]; simpl; (split; [repeat constructor; simpl; intuition lia|]); intros r Hr; simpl in Hr; repeat destruct Hr as [<-|Hr]; try contradiction; discriminate.
  - intros [|[|[|[|[|n]]]]] H; simpl in H; try congruence; reflexivity.
  - intros [|[|[|[|n]]]] c m Hc Hz Hm; simpl in Hz; try congruence; vm_compute in Hc; injection Hc as <-; simpl in Hm;
      repeat destruct Hm as [<-|Hm]; try contradiction; reflexivity.
  - intros [|[|[|[|n]]]] c e Hc Hz He Hf Ht; simpl in Hz; try congruence; vm_compute in Hc; injection Hc as <-; simpl in He;
      repeat destruct He as [<-|He]; try contradiction; simpl in Hf, Ht |- *; intuition lia.
  - intros [|[|[|[|n]]]] c e Hc Hz He Ht Hne; simpl in Hz; try congruence; vm_compute in Hc; injection Hc as <-; simpl in He;
      repeat destruct He as [<-|He]; try contradiction; simpl in Ht, Hne |- *; intuition lia.
  - intros needs zones rest s n w [[-> ->]|[-> ->]] E Hin; vm_compute in E; injection E as _ <-; simpl in Hin;
      repeat destruct Hin as [Hin|Hin]; try contradiction; injection Hin as <- <-; vm_compute; (split; [reflexivity|split; [discriminate|reflexivity]]).
Qed.

(** Finding: an independent work is placed without asking its zones, and then the zone
    timeline refuses to be occupied: the scheme raises. Without the flag, or without zones, the
    same chromosome is decoded. *)
Definition pl_independent : chromosome :=
  Chr (ch_order sg_ch) (ch_rows sg_ch) (ch_borders sg_ch) (fun n => if Nat.eqb n 3 then WSpec [] [] None true else sx_spec n).
Theorem parallel_independent_zone_fails :
  pl_decode pl_independent pl_needs pl_zones = SRaised /\
  (exists s, pl_decode sg_ch pl_needs pl_zones = SFinished [] s) /\
  (exists s, pl_decode pl_independent pl_needs (fun _ => []) = SFinished [] s).
Proof. split; [vm_compute; reflexivity|]. split; eexists; vm_compute; reflexivity. Qed.
Print Assumptions parallel_independent_zone_fails.
