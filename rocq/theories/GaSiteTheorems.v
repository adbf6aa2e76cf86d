(** Property C111: the genetic scheduler on a site with materials and zones, without deadline.
    Vocabulary: [GaSchedSpec], [genetic_inputs], [lags_respected] of [GaSchedSerial],
    [parallel_inputs], [staffed_anyhow] of [GaSchedParallel], [PipelineTheorems], [SupplySpec],
    [conflict] of [ZoneProofs], [latest_finish] of [GaSchedTheorems]. *)
From Coq Require Import ZArith List Bool Lia Arith Relations Permutation ZifyBool ZifyNat.
From Verif Require Import TimeModel MomentumModel JITModel MomentumSpec GraphModel ScheduleModel ScheduleSpec TeamProofs ScheduleInv ScheduleTheorems LftLoop Digraph TopoModel TopoProofs TopoTheorems
  TraverseModel ValidationModel OrderModel OrderTheorems HeadModel HeadProofs HeadTheorems GeneticModel GeneticResModel GeneticResTheorems
  PriorityModel PipelineModel PipelineTheorems SgsModel SgsSpec SgsTheorems SgsParallelTheorems GaModel GaProofs GaTheorems GaSchedModel GaSchedSpec GaSchedProofs GaSchedSerial GaSchedTheorems GaSchedParallel GaSchedParallelTheorems
  ZoneModel ZoneProofs ZoneTheorems SiteModel SiteTheorems SgsSiteModel SgsSiteTheorems SiteZoneProofs SiteSafe JitSiteZone SgsLandModel SgsLandTheorems GaSiteModel GaSite.
From Verif Require SupplyModel SupplySpec SupplyTheorems.
Import ListNotations.
Local Open Scope Z_scope.

(** ** Specification *)
(** The materials of the works of a schedule: the site was asked for exactly the materials of
    each work, the work starts at the time of the answer, no depot gives out more than it had
    and no road carries more vehicles than it may. *)
Definition materials_delivered (route : Z -> nat -> nat -> list nat) (overcome : nat -> Z) (holders : nat -> list SupplyModel.depot)
           (platform : nat -> nat) (needs : nat -> SupplyModel.request) (stock : nat -> nat -> option Z) (bandwidth : nat -> Z) (sd : sched) : Prop :=
  exists answers,
    Forall2 (fun work e => SupplyModel.c_platform (fst (fst e)) = platform (fst work) /\
                           SupplyModel.c_needs (fst (fst e)) = needs (fst work) /\
                           SupplyModel.c_deadline (fst (fst e)) <= sw_start (snd work) /\
                           sw_start (snd work) = snd e /\
                           SupplySpec.answered route overcome holders e)
            (rev sd) answers /\
    (forall h m, SupplySpec.taken h m (SupplySpec.deliveries answers) <= match stock h m with Some n => n | None => 0 end) /\
    (forall r t, SupplySpec.traffic r (SupplySpec.deliveries answers) t <= bandwidth r).
(** All works start by the horizon, and infinity is far beyond it. *)
Definition within_horizon (horizon round_trip : Z) (sd : sched) : Prop :=
  (forall n w, In (n, w) sd -> sw_start w <= horizon) /\
  horizon + Z.of_nat (length sd) * (horizon + Z.of_nat (length sd) * round_trip) < TIME_INF.
(** Platforms know the materials of the works and can store them. *)
Definition needs_ok (storage : nat -> nat -> Z) (platform : nat -> nat) (needs : nat -> SupplyModel.request) (material : nat -> nat -> option Z) : Prop :=
  forall n, NoDup (map fst (needs n)) /\
    forall m c, In (m, c) (needs n) -> c <= storage (platform n) m /\ material (platform n) m <> None.
(** What [parallel_feasible] says, of some of the works. *)
Record partly_feasible (g : graph) (cs : list contractor) (spec : nat -> work_spec) (works : list nat) (sd : sched) : Prop := {
  yf_works : NoDup (map fst sd) /\ incl (map fst sd) works;
  yf_times : forall n w, In (n, w) sd -> 0 <= sw_start w <= sw_finish w /\ sw_finish w <= TIME_INF;
  yf_chains : forall u v wu wv, inseparable g u v -> In (u, wu) sd -> In (v, wv) sd ->
    sw_finish wu <= sw_start wv /\ sw_team wu = sw_team wv /\ sw_contractor wu = sw_contractor wv;
  yf_teams : forall h n w, is_head g works h -> in_chain g h n -> In (n, w) sd -> staffed_anyhow g cs spec h w;
  yf_capacity : forall ct k n t, In ct cs -> In (k, n) (ct_workers ct) -> busy (schedule_bookings sd) (ct_id ct, k) t <= n;
  (* the predecessors are there too, except those of independent chains *)
  yf_lags : forall e h wv, In e (g_edges g) -> In (e_to e, wv) sd -> is_head g works h -> in_chain g h (e_to e) -> sp_independent (spec h) = false ->
    exists wu, In (e_from e, wu) sd /\ tadd (sw_finish wu) (e_lag e) <= sw_start wv }.
Lemma partly_whole g cs spec works sd : graph_ok g works -> partly_feasible g cs spec works sd -> length sd = length works -> parallel_feasible g cs spec works sd.
Proof.
  intros Hg F L. destruct (yf_works _ _ _ _ _ F) as [W1 W2]. constructor; [|apply F|apply F|apply F|apply F|].
  - apply NoDup_Permutation_bis; [exact W1|rewrite map_length; lia|exact W2].
  - intros e h wu wv He Hu Hv Hh Hn Hi. destruct (yf_lags _ _ _ _ _ F e h wv He Hv Hh Hn Hi) as (wu' & Hu' & L').
    replace wu with wu'; [exact L'|]. exact (LftLoop.nodup_fst_unique _ _ _ _ W1 Hu' Hu).
Qed.

(** ** The serial scheme *)
Section SerialSite.
  Variable g : graph.
  Variable works : list nat.
  Variable est : nat -> list worker -> Z.
  Variable cs : list contractor.
  Variable spec : nat -> work_spec.
  Variable prio : nat -> Z.
  Variable apt : Z.
  Variable opt : bool.
  Variable tb : toolbox.
  Hypothesis Hin : genetic_inputs g works est cs spec apt opt.
  Hypothesis Htb : tb_ok g works cs spec prio tb.
  Let Hg := gi_graph _ _ _ _ _ _ _ Hin.
  Let nodes := tb_nodes tb.
  Let names := worker_names cs.
  Variables (route : Z -> nat -> nat -> list nat) (overcome : nat -> Z) (holders : nat -> list SupplyModel.depot) (storage : nat -> nat -> Z)
            (platform : nat -> nat) (needs : nat -> SupplyModel.request) (cost : nat -> nat -> Z) (zones : nat -> list zreq).

  Lemma site_serial_good kz x0 ch sd : valid g spec tb opt ch ->
    site_serial route overcome holders storage platform needs cost zones g est cs tb apt x0 kz ch = Some sd ->
    feasible g cs spec works sd /\ lags_respected g works sd.
  Proof.
    intros V E. destruct (inputs_parts _ _ _ _ _ _ _ Hin) as (H1 & H2 & H3 & H4 & H5 & H6).
    destruct (valid_chains g works est cs spec prio apt opt tb Hin Htb ch V) as (heads & chains & F & P & Hh & T & C1 & C2 & C3 & C4 & C5 & Hlen).
    assert (Hck := valid_chromosome_ok g works est cs spec prio apt opt tb Hin Htb ch V). unfold site_serial in E.
    destruct (land_serial_decode _ _ _ _ _ _ _ _ _ _ _ _ _ _ _ _ _) as [[[sd' start] x]|] eqn:Ed; [|discriminate]. injection E as ->.
    destruct (site_serial_feasible g est route overcome holders storage platform needs cost zones names cs nodes ch apt _ x0 heads chains sd start x
      H1 H2 (names_nodup cs) Hck H3 H4 H6 F C1 C2 Hlen (fun e He _ _ => C4 e He) Ed) as (F1 & F2 & F3 & F4 & F5 & F6 & _).
    assert (Hst : forall hd r n w, In (hd :: r) chains -> In n (hd :: r) -> In (n, w) sd -> staffed g cs spec hd w).
    { intros hd r n w Hc Hn Hw. assert (Gt := F5 hd r n w Hc Hn Hw).
      destruct (gene_team_for g works est cs spec prio apt opt tb Hin Htb ch hd _ _ V Gt) as (ct & I1 & I2 & I3 & _ & I4). exists ct. auto. }
    split.
    - eapply feasible_of; eauto. intros ct k n t Hct Hk. apply In_nth_error in Hct as [ci Hci].
      destruct (workforce_border g works est cs spec prio apt opt tb Hin Htb ch ci ct k n V Hci Hk) as (b & Hb & Hle). specialize (F6 ci ct k n b t Hci Hk Hb). lia.
    - intros e wu wv He Hu Hv Hne. apply (F3 e wu wv He Hu Hv).
      + intros (c & Hc & Hcu & Hcv). apply C5 in Hc as (h & Hh1 & Ec). destruct (chain_in g works Hg h c Hh1 Ec) as (_ & M & _).
        apply M in Hcu, Hcv. apply (Hne h Hh1 Hcu Hcv).
      + destruct (gk_closed _ _ Hg e He) as [_ Hvn].
        destruct (has_head g (graph_chains g works Hg) works (gk_closed _ _ Hg) _ Hvn) as (h & Hh1 & Hh2).
        destruct (inseparable_chain_correct g h (graph_chains g works Hg) (proj2 Hh1)) as (c & Ec & _ & M & _).
        assert (Ec' := Ec). apply chain_head in Ec' as [r ->]. exists h, r. split; [apply C5; eauto|]. split; [apply M; exact Hh2|].
        left. rewrite (v_spec _ _ _ _ _ V h). apply (gi_no_times _ _ _ _ _ _ _ Hin).
  Qed.
  Lemma site_serial_materials_good stock vehicles bandwidth material zone0 round_trip horizon kz ch sd : valid g spec tb opt ch ->
    SupplySpec.landscape_ok route overcome holders stock vehicles bandwidth round_trip -> 0 <= round_trip -> 0 <= horizon ->
    needs_ok storage platform needs material ->
    site_serial route overcome holders storage platform needs cost zones g est cs tb apt (SupplyModel.start_supply stock vehicles bandwidth material, zone0) kz ch = Some sd ->
    within_horizon horizon round_trip sd -> materials_delivered route overcome holders platform needs stock bandwidth sd.
  Proof.
    intros V HL Hrt Hh0 Hneeds E [W1 W2]. destruct (inputs_parts _ _ _ _ _ _ _ Hin) as (H1 & H2 & H3 & H4 & H5 & H6).
    destruct (valid_chains g works est cs spec prio apt opt tb Hin Htb ch V) as (heads & chains & F & _).
    assert (Hck := valid_chromosome_ok g works est cs spec prio apt opt tb Hin Htb ch V). unfold site_serial in E.
    destruct (land_serial_decode _ _ _ _ _ _ _ _ _ _ _ _ _ _ _ _ _) as [[[sd' start] x]|] eqn:Ed; [|discriminate]. injection E as ->.
    exact (site_serial_materials g est route overcome holders storage platform needs cost zones zone0 stock vehicles bandwidth material round_trip horizon
      names cs nodes ch apt _ heads sd start x H1 H2 Hck H3 H4 H6 F HL Hrt Hh0 Hneeds Ed W1 W2).
  Qed.
  Lemma site_serial_free x0 ch : (forall n, needs n = []) -> (forall n, zones n = []) -> valid g spec tb opt ch ->
    site_serial route overcome holders storage platform needs cost zones g est cs tb apt x0 0 ch = serial g est cs tb apt ch.
  Proof.
    intros Hn Hz V. destruct (inputs_parts _ _ _ _ _ _ _ Hin) as (_ & _ & _ & _ & _ & H6). unfold site_serial, serial.
    rewrite site_serial_without_needs; [|exact H6|exact Hn|exact Hz|].
    - destruct (serial_decode _ _ _ _ _ _ _) as [[sd start]|]; reflexivity.
    - intros w Hw. apply (Permutation_in _ (v_order _ _ _ _ _ V)), in_seq in Hw. apply nth_error_repeat.
      rewrite (Permutation_length (v_order _ _ _ _ _ V)), seq_length. lia.
  Qed.
End SerialSite.

(** C111, the serial scheme. Whatever the works need: if the genetic scheduler, started from
    individuals, answers, it answers schedules that are feasible, decoded from individuals, and
    whose materials are delivered. *)
Theorem genetic_site_serial :
  forall g works est cs spec prio apt optimize tb
         route overcome holders storage platform needs cost zones zone0 stock vehicles bandwidth material round_trip kz
         listing shuffle draw timeout nsga2 multi size weights fitness worst max_plateau number init answers,
    genetic_inputs g works est cs spec apt optimize -> prepare g works cs spec prio = Some tb ->
    SupplySpec.landscape_ok route overcome holders stock vehicles bandwidth round_trip -> 0 <= round_trip ->
    needs_ok storage platform needs material ->
    (forall s k l, Permutation (shuffle s k l) l) -> (forall s k l, incl (nsga2 s k l) l) -> (forall s k, draws_ok (draw s k)) ->
    (forall rows, length (fitness rows) = length weights) -> length worst = length weights ->
    Forall (individual_ok g cs spec prio (tb_nodes tb) (tb_cborders tb) optimize) init ->
    genetic_schedules g cs tb
      (site_serial route overcome holders storage platform needs cost zones g est cs tb apt (SupplyModel.start_supply stock vehicles bandwidth material, zone0) kz)
      listing shuffle draw timeout nsga2 multi size weights fitness worst optimize max_plateau number init = Some answers ->
    answers <> [] /\
    forall ch sd, In (ch, sd) answers ->
      individual_ok g cs spec prio (tb_nodes tb) (tb_cborders tb) optimize ch /\
      feasible g cs spec works sd /\ lags_respected g works sd /\
      forall horizon, 0 <= horizon -> within_horizon horizon round_trip sd ->
        materials_delivered route overcome holders platform needs stock bandwidth sd.
Proof.
  intros g works est cs spec prio apt opt tb route overcome holders storage platform needs cost zones zone0 stock vehicles bandwidth material round_trip kz
    listing shuffle draw timeout nsga2 multi size weights fitness worst mp number init answers Hin Hp HL Hrt Hneeds Hs Hn Hd Hf Hw Hi H.
  assert (Htb := prepare_ok _ _ _ _ _ _ (gi_graph _ _ _ _ _ _ _ Hin) Hp).
  destruct (answers_valid g works est cs spec prio apt opt tb Hin Hp _ listing shuffle draw timeout nsga2 multi size weights fitness worst mp number init answers Hs Hn Hd Hf Hw Hi H) as [A1 A2].
  split; [exact A1|]. intros ch sd Ha. destruct (A2 ch sd Ha) as [V E].
  split; [apply (ok_valid g works est cs spec prio apt opt tb Hin Hp); exact V|].
  destruct (site_serial_good g works est cs spec prio apt opt tb Hin Htb _ _ _ _ _ _ _ _ kz _ ch sd V E) as [F L]. split; [exact F|]. split; [exact L|].
  intros horizon Hh Hwh. eapply site_serial_materials_good; eauto.
Qed.
Print Assumptions genetic_site_serial.

(** Finding: on a site with a zone, whatever the works need, the genetic scheduler with the
    serial scheme always raises. *)
Theorem genetic_serial_fails_with_zones :
  forall g works est cs spec prio apt optimize tb route overcome holders storage platform needs cost zones x0 kz
         listing shuffle draw timeout nsga2 multi size weights fitness worst max_plateau number init,
    genetic_inputs g works est cs spec apt optimize -> prepare g works cs spec prio = Some tb -> (0 < kz)%nat ->
    init <> [] -> Forall (individual_ok g cs spec prio (tb_nodes tb) (tb_cborders tb) optimize) init ->
    genetic_schedules g cs tb (site_serial route overcome holders storage platform needs cost zones g est cs tb apt x0 kz)
      listing shuffle draw timeout nsga2 multi size weights fitness worst optimize max_plateau number init = None.
Proof.
  intros g works est cs spec prio apt opt tb route overcome holders storage platform needs cost zones x0 kz
    listing shuffle draw timeout nsga2 multi size weights fitness worst mp number init Hin Hp Hk Hne Hi.
  apply (undecodable g works est cs spec prio apt opt tb Hin Hp); [exact Hne|exact Hi|].
  intros ch V. unfold site_serial. change (repeat (repeat 0%nat kz) (length (ch_order ch))) with (no_changes (length (ch_order ch)) kz).
  rewrite serial_scheme_fails_with_zones; [reflexivity|exact Hk|]. intros E.
  assert (L := Permutation_length (v_order _ _ _ _ _ V)). rewrite E, seq_length in L. cbn in L.
  apply (nodes_nonempty g works est cs spec prio apt opt tb Hin Hp). destruct (tb_nodes tb); [reflexivity|discriminate].
Qed.
Print Assumptions genetic_serial_fails_with_zones.

(** ** The parallel scheme *)
Section ParallelSite.
  Variable g : graph.
  Variable works : list nat.
  Variable est : nat -> list worker -> Z.
  Variable cs : list contractor.
  Variable spec : nat -> work_spec.
  Variable prio : nat -> Z.
  Variable apt : Z.
  Variable opt : bool.
  Variable tb : toolbox.
  Hypothesis Hin : genetic_inputs g works est cs spec apt opt.
  Variables D Lg : Z.
  Hypothesis Hpi : parallel_inputs g works est cs spec apt D Lg.
  Hypothesis Htb : tb_ok g works cs spec prio tb.
  Let Hg := gi_graph _ _ _ _ _ _ _ Hin.
  Let nodes := tb_nodes tb.
  Let names := worker_names cs.
  Variables (route : Z -> nat -> nat -> list nat) (overcome : nat -> Z) (holders : nat -> list SupplyModel.depot) (storage : nat -> nat -> Z)
            (platform : nat -> nat) (needs : nat -> SupplyModel.request) (cost : nat -> nat -> Z) (zones : nat -> list zreq).
  Variable start : nat.
  Hypothesis Hstart : forall n, In n works -> n = start \/ path (depends_on g) start n.
  Hypothesis Hfree : needs start = [] /\ zones start = [].

  (** what C108 asks of a chromosome *)
  Lemma parallel_parts ch : valid g spec tb opt ch ->
    exists heads chains, Forall2 (fun w n => nth_error nodes w = Some n) (ch_order ch) heads /\ chains_of g heads = Some chains /\ NoDup (concat chains) /\
      Permutation (concat chains) works /\
      (forall n amounts ci k a b, gene nodes ch n amounts ci -> row_amount names amounts k a -> border_for names (ch_borders ch) ci k b -> a <= b) /\
      (forall n amounts ci k a m, gene nodes ch n amounts ci -> row_amount names amounts k a -> 0 < a ->
         spec_count (ch_spec ch n) (u_reqs (g_unit g n)) k m -> m <= a) /\
      (forall hd r l n q, chains = (hd :: r) :: l -> sp_independent (ch_spec ch hd) = false -> In n (hd :: r) -> In q (parents g n) -> In q (hd :: r)) /\
      (forall c e, In c chains -> In e (g_edges g) -> In (e_from e) c -> In (e_to e) c -> comes_before c (e_from e) (e_to e)) /\
      (forall n, hd_error heads = Some n -> needs n = [] /\ zones n = []) /\
      (forall h, is_head g works h -> exists r, chain_of g h = Some (h :: r) /\ In (h :: r) chains).
  Proof.
    intros V. destruct (valid_chains g works est cs spec prio apt opt tb Hin Htb ch V) as (heads & chains & F & P & Hh & T & C1 & C2 & C3 & C4 & C5 & Hlen).
    exists heads, chains. split; [exact F|]. split; [exact C1|]. split; [exact C2|]. split; [exact C3|]. split; [|split; [|split; [|split; [|split]]]].
    - intros n amounts ci k a b G Ra (row & j & B1 & B2 & B3).
      destruct (amount_cell g works est cs spec prio apt opt tb Hin Htb ch n amounts ci k a V G Ra) as (_ & b' & _ & (row' & j' & B1' & B2' & B3') & Hab & _).
      assert (row' = row) by congruence. subst row'.
      assert (j' = j) by (eapply (proj1 (NoDup_nth_error names) (names_nodup cs)); [apply nth_lt in B2'; exact B2'|exact (eq_trans B2' (eq_sym B2))]). subst j'. congruence.
    - intros n amounts ci k a m _ _ _ [Hs _]. exfalso. rewrite (v_spec _ _ _ _ _ V n), (pi_counts _ _ _ _ _ _ _ _ Hpi n) in Hs. destruct Hs.
    - intros hd r l n q Ec _ Hn Hq. unfold parents in Hq. apply in_map_iff in Hq as (e & <- & He). apply filter_In in He as [He _]. unfold edges_to in He.
      apply filter_In in He as [He Hto]. apply Nat.eqb_eq in Hto. assert (Hb := C4 e He). rewrite Ec in Hb, C2. cbn [concat] in Hb, C2.
      apply comes_before_prefix in Hb; [apply (comes_before_in _ _ _ Hb)|exact C2|rewrite Hto; exact Hn].
    - intros c e Hc He I1 I2. assert (Hb := C4 e He). apply in_split in Hc as (l1 & l2 & Ec).
      assert (Ec' : concat chains = concat l1 ++ c ++ concat l2) by (rewrite Ec, concat_app; reflexivity). rewrite Ec' in Hb, C2.
      destruct (comes_before_total c (e_from e) (e_to e) I1 I2) as [Hx|Hx]; [|exact Hx|].
      + intros Eq. rewrite Eq in Hb. exact (comes_before_irrefl _ _ C2 Hb).
      + exfalso. apply (comes_before_asym _ _ _ C2 Hb). apply SgsParallel.comes_before_ext. exact Hx.
    - intros n Hn. destruct heads as [|h0 hs]; [discriminate|]. injection Hn as ->.
      assert (n = start) as ->; [|exact Hfree].
      assert (Hnw : In n works) by (apply Hh; left; reflexivity). destruct (Hstart n Hnw) as [E|Hpath]; [exact E|]. exfalso.
      assert (Hcb : comes_before (concat chains) start n).
      { clear -Hpath C2 C4. induction Hpath as [a b (e & He & _ & <- & <-)|a b c _ IH1 _ IH2]; [apply C4, He|eapply comes_before_trans; eauto]. }
      cbn [chains_of] in C1. destruct (chain_of g n) as [c|] eqn:Ec; [|discriminate]. destruct (chains_of g hs) as [cs'|]; [|discriminate]. injection C1 as <-.
      destruct (chain_head _ _ _ Ec) as [r ->]. cbn [concat] in Hcb, C2.
      assert (Hin' : In start (n :: r ++ concat cs')) by (apply (comes_before_in _ _ _ Hcb)).
      destruct Hin' as [->|Hin']; [exact (comes_before_irrefl _ _ C2 Hcb)|].
      apply (comes_before_asym _ _ _ C2 Hcb). exists []. apply in_split in Hin' as (l1 & l2 & El). exists l1, l2. cbn. rewrite <- El. reflexivity.
    - intros h Hh1. destruct (inseparable_chain_correct g h (graph_chains g works Hg) (proj2 Hh1)) as (c & Ec & _).
      assert (Ec' := Ec). apply chain_head in Ec' as [r ->]. exists r. split; [exact Ec|]. apply C5. eauto.
  Qed.
  Lemma site_parallel_good x0 fuel ch sd : valid g spec tb opt ch ->
    site_parallel route overcome holders storage platform needs cost zones g est cs tb apt x0 fuel ch = Some sd -> partly_feasible g cs spec works sd.
  Proof.
    intros V E. destruct (inputs_parts _ _ _ _ _ _ _ Hin) as (H1 & H2 & H3 & H4 & H5 & H6).
    destruct (parallel_parts ch V) as (heads & chains & F & C1 & C2 & C3 & Hrow & Hsp & Hfirst & Hins & Hfr & Hchain).
    assert (Hck := valid_chromosome_ok g works est cs spec prio apt opt tb Hin Htb ch V). unfold site_parallel in E.
    destruct (land_parallel_decode _ _ _ _ _ _ _ _ _ _ _ _ _ _ _ _ _) as [rest s| |] eqn:Ed; try discriminate. injection E as <-.
    destruct (site_parallel_feasible g est names cs nodes ch apt land _ _ _ _ _ x0 heads chains fuel rest s
      (land_mat route overcome holders storage platform needs) (land_del route overcome holders storage platform needs) (land_zone_range cost zones)
      H1 H2 (names_nodup cs) Hck H4 H6 F C1 C2 Hrow Hsp Hfirst Hins
      (fun n t e Hn => land_first_free route overcome holders storage platform needs cost zones x0 n t e (proj1 (Hfr n Hn)) (proj2 (Hfr n Hn))) Ed)
      as (F1 & F2 & F3 & F4 & F5 & F6 & F7 & _).
    constructor.
    - split; [exact F1|]. intros n Hn. apply (Permutation_in _ C3). apply F2. left. exact Hn.
    - exact F3.
    - intros u v wu wv Hi Hu Hv. assert (Hi' := Hi). destruct Hi' as (e & He & _ & Ef & Et).
      destruct (gk_closed _ _ Hg e He) as [Hun _]. rewrite Ef in Hun.
      destruct (has_head g (graph_chains g works Hg) works (gk_closed _ _ Hg) u Hun) as (h & Hh1 & Hh2).
      destruct (Hchain h Hh1) as (r & E' & Hc). apply (F5 (h :: r) u v); auto.
      apply (chain_in g works Hg h (h :: r) Hh1 E'). split; [exact Hh2|apply t_step; exact Hi].
    - intros h n w Hh1 Hn Hw. destruct (Hchain h Hh1) as (r & E' & Hc).
      apply (team_staffed g works est cs spec prio apt opt tb D Lg Hin Hpi Htb ch h w V Hh1). apply (F6 h r n w Hc); [|exact Hw].
      apply (chain_in g works Hg h (h :: r) Hh1 E'). exact Hn.
    - intros ct k n t Hct Hk. apply In_nth_error in Hct as [ci Hci].
      destruct (workforce_border g works est cs spec prio apt opt tb Hin Htb ch ci ct k n V Hci Hk) as (b & Hb & Hle). specialize (F7 ci ct k n b t Hci Hk Hb). lia.
    - intros e h wv He Hv Hh1 Hn Hi. destruct (Hchain h Hh1) as (r & E' & Hc).
      apply (F4 e h r wv He (gk_types _ _ Hg e He) Hc); [apply (chain_in g works Hg h (h :: r) Hh1 E'); exact Hn|rewrite (v_spec _ _ _ _ _ V h); exact Hi|exact Hv].
  Qed.
  Lemma site_parallel_materials_good stock vehicles bandwidth material zone0 round_trip horizon fuel ch sd : valid g spec tb opt ch ->
    SupplySpec.landscape_ok route overcome holders stock vehicles bandwidth round_trip -> 0 <= round_trip -> 0 <= horizon ->
    needs_ok storage platform needs material ->
    site_parallel route overcome holders storage platform needs cost zones g est cs tb apt (SupplyModel.start_supply stock vehicles bandwidth material, zone0) fuel ch = Some sd ->
    within_horizon horizon round_trip sd -> materials_delivered route overcome holders platform needs stock bandwidth sd.
  Proof.
    intros V HL Hrt Hh0 Hneeds E [W1 W2]. destruct (inputs_parts _ _ _ _ _ _ _ Hin) as (H1 & H2 & H3 & H4 & H5 & H6).
    destruct (parallel_parts ch V) as (heads & chains & F & C1 & C2 & C3 & Hrow & Hsp & Hfirst & Hins & Hfr & Hchain).
    assert (Hck := valid_chromosome_ok g works est cs spec prio apt opt tb Hin Htb ch V). unfold site_parallel in E.
    destruct (land_parallel_decode _ _ _ _ _ _ _ _ _ _ _ _ _ _ _ _ _) as [rest s| |] eqn:Ed; try discriminate. injection E as <-.
    exact (site_parallel_materials g est route overcome holders storage platform needs cost zones zone0 stock vehicles bandwidth material round_trip horizon
      names cs nodes ch apt heads chains fuel rest s H1 H2 (names_nodup cs) Hck H4 H6 F C1 C2 Hrow Hsp Hfirst Hfr HL Hrt Hh0 Hneeds Ed W1 W2).
  Qed.
  Lemma site_parallel_zones_good zstart stock vehicles bandwidth material fuel ch sd : valid g spec tb opt ch ->
    (forall s q, s <> q -> cost s q = 0) ->
    (forall n, NoDup (map fst (zones n)) /\ forall r, In r (zones n) -> zstart (fst r) <> None) ->
    (forall n, zones n <> [] -> sp_independent (spec n) = false) ->
    (forall n m, is_head g works n -> zones n <> [] -> in_chain g n m -> needs m = []) ->
    (forall n e, is_head g works n -> zones n <> [] -> In e (g_edges g) -> in_chain g n (e_from e) -> in_chain g n (e_to e) -> e_lag e <= 0) ->
    (forall n e, is_head g works n -> zones n <> [] -> In e (g_edges g) -> in_chain g n (e_to e) -> e_to e <> n -> in_chain g n (e_from e)) ->
    (forall n, zones n <> [] -> is_head g works n) ->
    site_parallel route overcome holders storage platform needs cost zones g est cs tb apt (SupplyModel.start_supply stock vehicles bandwidth material, zones_start zstart) fuel ch = Some sd ->
    (forall n w, In (n, w) sd -> 2 * sw_finish w < TIME_INF) ->
    forall u v z q q', In (z, q) (zones u) -> In (z, q') (zones v) -> conflict q q' ->
      (forall n w m w', in_chain g u n -> In (n, w) sd -> in_chain g v m -> In (m, w') sd -> sw_finish w <= sw_start w') \/
      (forall n w m w', in_chain g u n -> In (n, w) sd -> in_chain g v m -> In (m, w') sd -> sw_finish w' <= sw_start w).
  Proof.
    intros V Hcost Hz Hind Hnn Hnl Hinn Hzh E Hfin u v z q q' Hu Hv Hcf. destruct (inputs_parts _ _ _ _ _ _ _ Hin) as (H1 & H2 & H3 & H4 & H5 & H6).
    destruct (parallel_parts ch V) as (heads & chains & F & C1 & C2 & C3 & Hrow & Hsp & Hfirst & Hins & Hfr & Hchain).
    assert (Hck := valid_chromosome_ok g works est cs spec prio apt opt tb Hin Htb ch V). unfold site_parallel in E.
    destruct (land_parallel_decode _ _ _ _ _ _ _ _ _ _ _ _ _ _ _ _ _) as [rest s| |] eqn:Ed; try discriminate. injection E as <-.
    assert (Nz : forall n x, In x (zones n) -> zones n <> []) by (intros n x Hx E; rewrite E in Hx; destruct Hx).
    assert (Hm : forall n c m, is_head g works n -> chain_of g n = Some c -> (In m c <-> in_chain g n m)).
    { intros n c m Hh Hc. apply (chain_in g works Hg n c Hh Hc). }
    destruct (Hchain u (Hzh u (Nz u _ Hu))) as (ru & Eu & Iu). destruct (Hchain v (Hzh v (Nz v _ Hv))) as (rv & Ev & Iv).
    destruct (site_parallel_zones g est route overcome holders storage platform needs cost zones zstart stock vehicles bandwidth material
      names cs nodes ch apt heads chains fuel rest s H1 H2 (names_nodup cs) Hck H4 H6 F C1 C2 Hrow Hsp Hfirst Hfr Hcost Hz) with
      (u := u) (cu := ru) (v := v) (cv := rv) (z := z) (q := q) (q' := q') as [Z|Z]; auto.
    - intros n Hn. rewrite (v_spec _ _ _ _ _ V n). apply Hind, Hn.
    - intros n c m Hc Hn Hm'. apply (Hnn n m (Hzh n Hn) Hn). apply (Hm n c m (Hzh n Hn) Hc), Hm'.
    - intros n c e Hc Hn He I1 I2. apply (Hnl n e (Hzh n Hn) Hn He); apply (Hm n c _ (Hzh n Hn) Hc); assumption.
    - intros n c e Hc Hn He I1 I2. apply (Hm n c _ (Hzh n Hn) Hc). apply (Hinn n e (Hzh n Hn) Hn He); [apply (Hm n c _ (Hzh n Hn) Hc)|]; assumption.
    - left. intros n w m w' N1 N2 M1 M2. apply (Z n w m w'); auto; [apply (Hm u _ _ (Hzh u (Nz u _ Hu)) Eu), N1|apply (Hm v _ _ (Hzh v (Nz v _ Hv)) Ev), M1].
    - right. intros n w m w' N1 N2 M1 M2. apply (Z n w m w'); auto; [apply (Hm u _ _ (Hzh u (Nz u _ Hu)) Eu), N1|apply (Hm v _ _ (Hzh v (Nz v _ Hv)) Ev), M1].
  Qed.
End ParallelSite.

(** Works with zones: changing a status takes no time; a work with zones is the first one of its
    chain and not independent, no work of its chain needs materials, the lags inside its chain
    are not positive and its later works wait for nobody outside the chain. *)
Record zones_ok (g : graph) (works : list nat) (spec : nat -> work_spec) (needs : nat -> SupplyModel.request)
       (cost : nat -> nat -> Z) (zones : nat -> list zreq) (statuses : nat -> option nat) : Prop := {
  zo_cost : forall s q, s <> q -> cost s q = 0;
  zo_known : forall n, NoDup (map fst (zones n)) /\ forall r, In r (zones n) -> statuses (fst r) <> None;
  zo_head : forall n, zones n <> [] -> is_head g works n;
  zo_dependent : forall n, zones n <> [] -> sp_independent (spec n) = false;
  zo_no_needs : forall n m, zones n <> [] -> in_chain g n m -> needs m = [];
  zo_lags : forall n e, zones n <> [] -> In e (g_edges g) -> in_chain g n (e_from e) -> in_chain g n (e_to e) -> e_lag e <= 0;
  zo_waits : forall n e, zones n <> [] -> In e (g_edges g) -> in_chain g n (e_to e) -> e_to e <> n -> in_chain g n (e_from e) }.
(** Chains that need different statuses of a zone are not carried out at the same time. *)
Definition zones_apart (g : graph) (zones : nat -> list zreq) (sd : sched) : Prop :=
  forall u v z q q', In (z, q) (zones u) -> In (z, q') (zones v) -> conflict q q' ->
    (forall n w m w', in_chain g u n -> In (n, w) sd -> in_chain g v m -> In (m, w') sd -> sw_finish w <= sw_start w') \/
    (forall n w m w', in_chain g u n -> In (n, w) sd -> in_chain g v m -> In (m, w') sd -> sw_finish w' <= sw_start w).

(** C111, the parallel scheme, the default one. The start of the works, on which all others
    depend, needs neither materials nor zones. *)
Theorem genetic_site_parallel :
  forall g works est cs spec prio apt D Lg optimize tb start
         route overcome holders storage platform needs cost zones statuses stock vehicles bandwidth material round_trip fuel
         listing shuffle draw timeout nsga2 multi size weights fitness worst max_plateau number init answers,
    genetic_inputs g works est cs spec apt optimize -> parallel_inputs g works est cs spec apt D Lg -> prepare g works cs spec prio = Some tb ->
    (forall n, In n works -> n = start \/ path (depends_on g) start n) -> needs start = [] -> zones start = [] ->
    SupplySpec.landscape_ok route overcome holders stock vehicles bandwidth round_trip -> 0 <= round_trip ->
    needs_ok storage platform needs material ->
    (forall s k l, Permutation (shuffle s k l) l) -> (forall s k l, incl (nsga2 s k l) l) -> (forall s k, draws_ok (draw s k)) ->
    (forall rows, length (fitness rows) = length weights) -> length worst = length weights ->
    Forall (individual_ok g cs spec prio (tb_nodes tb) (tb_cborders tb) optimize) init ->
    genetic_schedules g cs tb
      (site_parallel route overcome holders storage platform needs cost zones g est cs tb apt (SupplyModel.start_supply stock vehicles bandwidth material, zones_start statuses) fuel)
      listing shuffle draw timeout nsga2 multi size weights fitness worst optimize max_plateau number init = Some answers ->
    answers <> [] /\
    forall ch sd, In (ch, sd) answers ->
      individual_ok g cs spec prio (tb_nodes tb) (tb_cborders tb) optimize ch /\
      partly_feasible g cs spec works sd /\
      (length sd = length works -> parallel_feasible g cs spec works sd) /\
      (forall horizon, 0 <= horizon -> within_horizon horizon round_trip sd ->
         materials_delivered route overcome holders platform needs stock bandwidth sd) /\
      (zones_ok g works spec needs cost zones statuses -> (forall n w, In (n, w) sd -> 2 * sw_finish w < TIME_INF) -> zones_apart g zones sd).
Proof.
  intros g works est cs spec prio apt D Lg opt tb start route overcome holders storage platform needs cost zones statuses stock vehicles bandwidth material round_trip fuel
    listing shuffle draw timeout nsga2 multi size weights fitness worst mp number init answers Hin Hpi Hp Hst Hn0 Hz0 HL Hrt Hneeds Hs Hn Hd Hf Hw Hi H.
  assert (Hg := gi_graph _ _ _ _ _ _ _ Hin). assert (Htb := prepare_ok _ _ _ _ _ _ Hg Hp).
  destruct (answers_valid g works est cs spec prio apt opt tb Hin Hp _ listing shuffle draw timeout nsga2 multi size weights fitness worst mp number init answers Hs Hn Hd Hf Hw Hi H) as [A1 A2].
  split; [exact A1|]. intros ch sd Ha. destruct (A2 ch sd Ha) as [V E].
  split; [apply (ok_valid g works est cs spec prio apt opt tb Hin Hp); exact V|].
  assert (F := site_parallel_good g works est cs spec prio apt opt tb Hin D Lg Hpi Htb _ _ _ _ _ _ _ _ start Hst (conj Hn0 Hz0) _ _ ch sd V E).
  split; [exact F|]. split; [apply partly_whole; assumption|]. split.
  - intros horizon Hh Hwh. eapply site_parallel_materials_good; eauto.
  - intros [Z1 Z2 Z3 Z4 Z5 Z6 Z7] Hfin. unfold zones_apart. eapply site_parallel_zones_good; eauto.
Qed.
Print Assumptions genetic_site_parallel.

(** C111, a site that is not used: if no work needs materials or zones, what C68 and C70 say. *)
Theorem genetic_site_without_needs :
  forall g works est cs spec prio apt optimize tb
         route overcome holders storage platform needs cost zones x0
         listing shuffle draw timeout nsga2 multi size weights fitness worst max_plateau number init,
    genetic_inputs g works est cs spec apt optimize -> prepare g works cs spec prio = Some tb ->
    (forall n, needs n = []) -> (forall n, zones n = []) ->
    (forall l, Permutation (listing l) l) -> (forall s k l, Permutation (shuffle s k l) l) -> (forall s k l, incl (nsga2 s k l) l) ->
    (forall s k, draws_ok (draw s k)) ->
    (forall rows, length (fitness rows) = length weights) -> length worst = length weights ->
    init <> [] -> Forall (individual_ok g cs spec prio (tb_nodes tb) (tb_cborders tb) optimize) init ->
    (exists answers,
      genetic_schedules g cs tb (site_serial route overcome holders storage platform needs cost zones g est cs tb apt x0 0)
        listing shuffle draw timeout nsga2 multi size weights fitness worst optimize max_plateau number init = Some answers /\ answers <> [] /\
      forall ch sd, In (ch, sd) answers ->
        individual_ok g cs spec prio (tb_nodes tb) (tb_cborders tb) optimize ch /\ feasible g cs spec works sd /\ lags_respected g works sd) /\
    (forall D Lg fuel, parallel_inputs g works est cs spec apt D Lg -> (iterations g works apt D Lg tb <= fuel)%nat ->
     exists answers,
      genetic_schedules g cs tb (site_parallel route overcome holders storage platform needs cost zones g est cs tb apt x0 fuel)
        listing shuffle draw timeout nsga2 multi size weights fitness worst optimize max_plateau number init = Some answers /\ answers <> [] /\
      forall ch sd, In (ch, sd) answers ->
        individual_ok g cs spec prio (tb_nodes tb) (tb_cborders tb) optimize ch /\ parallel_feasible g cs spec works sd).
Proof.
  intros g works est cs spec prio apt opt tb route overcome holders storage platform needs cost zones x0
    listing shuffle draw timeout nsga2 multi size weights fitness worst mp number init Hin Hp Hn0 Hz0 Hl Hs Hn Hd Hf Hw Hne Hi.
  assert (Htb := prepare_ok _ _ _ _ _ _ (gi_graph _ _ _ _ _ _ _ Hin) Hp). split.
  - destruct (answers_ok g works est cs spec prio apt opt tb listing Hin Hp Hl (site_serial route overcome holders storage platform needs cost zones g est cs tb apt x0 0)
      (fun sd => feasible g cs spec works sd /\ lags_respected g works sd)) with (shuffle := shuffle) (draw := draw) (timeout := timeout) (nsga2 := nsga2)
      (multi := multi) (size := size) (weights := weights) (fitness := fitness) (worst := worst) (mp := mp) (number := number) (init := init)
      as (st & answers & _ & E & A1 & _ & A2); try assumption; [intros sd [F _]; apply (fs_works _ _ _ _ _ F)| |eauto].
    intros ch V. destruct (serial_ok g works est cs spec prio apt opt tb Hin Htb ch V) as (sd & start & E & F & L). exists sd.
    rewrite (site_serial_free g works est cs spec apt opt tb Hin) by assumption. unfold serial. rewrite E. auto.
  - intros D Lg fuel Hpi Hfu.
    destruct (answers_ok g works est cs spec prio apt opt tb listing Hin Hp Hl (site_parallel route overcome holders storage platform needs cost zones g est cs tb apt x0 fuel)
      (parallel_feasible g cs spec works)) with
      (shuffle := shuffle) (draw := draw) (timeout := timeout) (nsga2 := nsga2)
      (multi := multi) (size := size) (weights := weights) (fitness := fitness) (worst := worst) (mp := mp) (number := number) (init := init)
      as (st & answers & _ & E & A1 & _ & A2); try assumption; [apply pf_works| |eauto].
    intros ch V. destruct (parallel_ok g works est cs spec prio apt opt tb D Lg Hin Hpi Htb ch V) as (s & E & F). exists (ps_sched s).
    unfold site_parallel. rewrite site_parallel_without_needs; [|apply (inputs_parts _ _ _ _ _ _ _ Hin)|exact Hn0|exact Hz0]. rewrite (E fuel Hfu). auto.
Qed.
Print Assumptions genetic_site_without_needs.

(** ** The hypotheses are met: the works of [sx_graph] on the sites of [SiteTheorems] and [SgsLandTheorems] *)
Definition site_gx_serial kz :=
  match gx_toolbox, gx_individual with
  | Some tb, Some c =>
      genetic_schedules sx_graph sx_contractors tb (site_serial SupplyTheorems.sm_route SupplyTheorems.sm_overcome SupplyTheorems.sm_holders SupplyTheorems.sm_storage
          (fun _ => 2%nat) st_needs (fun _ _ => 0) (fun _ => []) sx_graph sx_est sx_contractors tb 0 (SupplyTheorems.sm_start, zones_start zx_start) kz)
        (fun l => l) (fun _ _ l => l) gx_draws (fun _ _ => false) (fun _ _ l => l) false 2 [-1] time_fitness [TIME_INF] true None 3 [c; c]
  | _, _ => None
  end.
Definition site_gx_parallel needs zones :=
  match gx_toolbox, gx_individual with
  | Some tb, Some c =>
      genetic_schedules sx_graph sx_contractors tb (site_parallel SupplyTheorems.sm_route SupplyTheorems.sm_overcome SupplyTheorems.sm_holders SupplyTheorems.sm_storage
          (fun _ => 2%nat) needs (fun _ _ => 0) zones sx_graph sx_est sx_contractors tb 0 (SupplyTheorems.sm_start, zones_start zx_start) 100)
        (fun l => l) (fun _ _ l => l) gx_draws (fun _ _ => false) (fun _ _ l => l) false 2 [-1] time_fitness [TIME_INF] true None 3 [c; c]
  | _, _ => None
  end.
Definition site_times (r : option (list (chromosome * sched))) := option_map (map (fun a => times (snd a))) r.
Example site_gx_values :
  site_times (site_gx_serial 0) = Some [[(0%nat, 0, 0); (1%nat, 4, 10); (2%nat, 10, 17); (3%nat, 5, 13); (4%nat, 17, 26); (5%nat, 26, 26)]] /\
  site_gx_serial 1 = None /\
  site_times (site_gx_parallel st_needs (fun _ => [])) =
    Some [[(0%nat, 0, 0); (1%nat, 4, 10); (2%nat, 10, 17); (3%nat, 4, 12); (4%nat, 17, 26); (5%nat, 26, 26)]] /\
  site_times (site_gx_parallel pl_needs pl_zones) =
    Some [[(0%nat, 0, 0); (1%nat, 0, 6); (2%nat, 6, 13); (3%nat, 13, 21); (4%nat, 22, 31); (5%nat, 31, 31)]].
Proof. vm_compute. repeat split. Qed.
Lemma sx_start n : In n px_nodes -> n = 0%nat \/ path (depends_on sx_graph) 0 n.
Proof.
  assert (E : forall e, In e (g_edges sx_graph) -> path (depends_on sx_graph) (e_from e) (e_to e)).
  { intros e He. apply t_step. exists e. split; [exact He|]. split; [apply (gk_types _ _ px_graph_ok e He)|auto]. }
  assert (E1 := E (Ed 0 1 0 FS) ltac:(simpl; tauto)). assert (E2 := E (Ed 1 2 0 IFS) ltac:(simpl; tauto)). assert (E3 := E (Ed 0 3 2 FS) ltac:(simpl; tauto)).
  assert (E5 := E (Ed 3 4 1 FS) ltac:(simpl; tauto)). assert (E6 := E (Ed 4 5 0 FS) ltac:(simpl; tauto)).
  cbn [e_from e_to] in *. assert (F2 := t_trans _ _ _ _ _ E1 E2). assert (F4 := t_trans _ _ _ _ _ E3 E5). assert (F5 := t_trans _ _ _ _ _ F4 E6).
  intros [<-|[<-|[<-|[<-|[<-|[<-|[]]]]]]]; auto.
Qed.
Lemma pl_zones_ok : zones_ok sx_graph px_nodes sx_spec pl_needs (fun _ _ => 0) pl_zones zx_start.
Proof.
  destruct pl_hypotheses as (_ & _ & P3 & _ & P5 & P6 & P7 & _).
  assert (Hh : forall n, pl_zones n <> [] -> is_head sx_graph px_nodes n).
  { intros [|[|[|[|n]]]] H; simpl in H; try congruence; (split; [simpl; tauto|]); intros x (e & He & Hi & _ & Et); simpl in He;
      repeat destruct He as [<-|He]; try contradiction; cbn in Hi, Et; discriminate. }
  assert (Hc : forall n, pl_zones n <> [] -> exists c, chain_of sx_graph n = Some c).
  { intros [|[|[|[|n]]]] H; simpl in H; try congruence; eexists; vm_compute; reflexivity. }
  assert (Hm : forall n c m, pl_zones n <> [] -> chain_of sx_graph n = Some c -> (In m c <-> in_chain sx_graph n m)).
  { intros n c m Hz E. apply (chain_in sx_graph px_nodes px_graph_ok n c (Hh n Hz) E). }
  constructor; auto.
  - intros n _. apply sx_dependent.
  - intros n m Hz I. destruct (Hc n Hz) as [c E]. apply (P5 n c m E Hz). apply (Hm n c m Hz E), I.
  - intros n e Hz He I1 I2. destruct (Hc n Hz) as [c E]. apply (P6 n c e E Hz He); apply (Hm n c _ Hz E); assumption.
  - intros n e Hz He I1 I2. destruct (Hc n Hz) as [c E]. apply (Hm n c _ Hz E). apply (P7 n c e E Hz He); [apply (Hm n c _ Hz E)|]; assumption.
Qed.
Example genetic_site_hypotheses :
  genetic_inputs sx_graph px_nodes sx_est sx_contractors sx_spec 0 true /\ parallel_inputs sx_graph px_nodes sx_est sx_contractors sx_spec 0 15 2 /\
  SupplySpec.landscape_ok SupplyTheorems.sm_route SupplyTheorems.sm_overcome SupplyTheorems.sm_holders SupplyTheorems.sm_stock
    SupplyTheorems.sm_vehicles SupplyTheorems.sm_bandwidth 10 /\
  needs_ok SupplyTheorems.sm_storage (fun _ => 2%nat) st_needs SupplyTheorems.sm_material /\
  needs_ok SupplyTheorems.sm_storage (fun _ => 2%nat) pl_needs SupplyTheorems.sm_material /\
  (forall n, In n px_nodes -> n = 0%nat \/ path (depends_on sx_graph) 0 n) /\
  st_needs 0%nat = [] /\ pl_needs 0%nat = [] /\ pl_zones 0%nat = [] /\
  zones_ok sx_graph px_nodes sx_spec pl_needs (fun _ _ => 0) pl_zones zx_start /\
  (exists tb c, gx_toolbox = Some tb /\ gx_individual = Some c /\
     individual_ok sx_graph sx_contractors sx_spec (fun _ => 1) (tb_nodes tb) (tb_cborders tb) true c) /\
  (forall answers ch sd, site_gx_serial 0 = Some answers \/ site_gx_parallel st_needs (fun _ => []) = Some answers \/ site_gx_parallel pl_needs pl_zones = Some answers ->
     In (ch, sd) answers -> within_horizon 50 10 sd /\ (forall n w, In (n, w) sd -> 2 * sw_finish w < TIME_INF) /\ length sd = length px_nodes).
Proof.
  split; [exact gx_inputs|]. split; [exact px_parallel_inputs|]. split; [apply SupplyTheorems.sm_landscape|].
  split; [destruct st_hypotheses as (_ & _ & _ & _ & _ & _ & _ & _ & _ & _ & _ & H); exact H|]. split.
  { intros [|[|[|[|[|n]]]]]; simpl; (split; [repeat constructor; simpl; intuition lia|]); intros m c Hm; simpl in Hm;
      repeat destruct Hm as [Hm|Hm]; try contradiction; injection Hm as <- <-; (split; [unfold SupplyTheorems.sm_storage; lia|discriminate]). }
  split; [exact sx_start|]. split; [reflexivity|]. split; [reflexivity|]. split; [reflexivity|]. split; [exact pl_zones_ok|]. split.
  - destruct genetic_hypotheses as (_ & tb & c & _ & _ & _ & _ & _ & _ & G1 & _ & _ & G4 & G5 & _). exists tb, c. split; [exact G1|].
    split; [|exact G5]. unfold gx_individual, gx_toolbox. rewrite G1. exact G4.
  - intros answers ch sd H Ha. repeat destruct H as [H|H]; vm_compute in H; injection H as <-; destruct Ha as [Ha|[]]; injection Ha as _ <-;
      (split; [split; [|reflexivity]|split; [|reflexivity]]); intros n w Hin; simpl in Hin;
      repeat destruct Hin as [Hin|Hin]; try contradiction; injection Hin as <- <-; vm_compute; try discriminate; reflexivity.
Qed.
