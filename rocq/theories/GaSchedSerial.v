(** Valid individuals are decoded to feasible schedules. *)
From Coq Require Import ZArith List Bool Lia Arith Relations Permutation ZifyBool ZifyNat.
From Verif Require Import TimeModel MomentumModel JITModel MomentumSpec GraphModel ScheduleModel ScheduleSpec TeamProofs ScheduleInv ScheduleTheorems Digraph TopoModel TopoProofs
  HeadModel HeadProofs HeadTheorems GeneticModel GeneticProofs GeneticTheorems GeneticResModel GeneticResTheorems PipelineModel PipelineTheorems
  LftLoop SgsModel SgsSpec SgsSerial SgsRound SgsTheorems GaModel GaProofs GaSchedModel GaSchedSpec GaSchedProofs.
Import ListNotations.
Local Open Scope Z_scope.

(** What is assumed of the input of the genetic scheduler. *)
Record genetic_inputs (g : graph) (works : list nat) (est : nat -> list worker -> Z) (cs : list contractor)
       (spec : nat -> work_spec) (apt : Z) (optimize : bool) : Prop := {
  gi_graph : graph_ok g works;
  gi_some : works <> [];
  gi_inputs : inputs_ok g est cs spec apt;
  (* all times fit *)
  gi_times : times_fit g est cs spec works apt;
  gi_few : Z.of_nat (length works) < TIME_INF;
  (* service works need nobody, the works of a chain need the same professions *)
  gi_service : forall n, u_service (g_unit g n) = true -> reqs_of g n = [];
  gi_shared : forall h m, is_head g works h -> in_chain g h m -> map r_kind (reqs_of g m) = map r_kind (reqs_of g h);
  (* contractors list their professions in the same order, and have every profession that a
     work may do without *)
  gi_order : same_profession_order cs;
  gi_kinds : forall n r c, In r (reqs_of g n) -> In c cs -> r_min r = 0 -> In (r_kind r) (map fst (ct_workers c));
  (* the specification: no times; counts of required professions that the allowed
     contractors have; none if the borders are optimized *)
  gi_no_times : forall n, sp_time (spec n) = None;
  gi_dict : forall n, NoDup (map fst (sp_workers (spec n)));
  gi_required : forall n k m, In (k, m) (sp_workers (spec n)) -> In k (map r_kind (reqs_of g n));
  gi_counts : forall n, spec_fits cs (reqs_of g n) (spec n);
  gi_optimize : optimize = true -> forall n, sp_workers (spec n) = [] }.

(** Every dependency between works of different chains is respected with its lag. *)
Definition lags_respected (g : graph) (works : list nat) (sd : sched) : Prop :=
  forall e wu wv, In e (g_edges g) -> In (e_from e, wu) sd -> In (e_to e, wv) sd ->
    (forall h, is_head g works h -> in_chain g h (e_from e) -> ~ in_chain g h (e_to e)) ->
    tadd (sw_finish wu) (e_lag e) <= sw_start wv.

Section Serial.
  Variable g : graph.
  Variable works : list nat.
  Variable est : nat -> list worker -> Z.
  Variable cs : list contractor.
  Variable spec : nat -> work_spec.
  Variable prio : nat -> Z.
  Variable apt : Z.
  Variable opt : bool.
  Variable tb : toolbox.
  Hypothesis Hin : genetic_inputs g works est cs spec apt opt.
  Hypothesis Htb : tb_ok g works cs spec prio tb.
  Let Hg := gi_graph _ _ _ _ _ _ _ Hin.
  Let nodes := tb_nodes tb.
  Let names := worker_names cs.

  Lemma inputs_parts : contractors_ok cs /\ estimator_ok est /\ (forall n, reqs_ok (u_reqs (g_unit g n))) /\ (forall n, 0 <= u_volume (g_unit g n)) /\
    (forall n, spec_ok (spec n)) /\ 0 <= apt <= TIME_INF.
  Proof. exact (gi_inputs _ _ _ _ _ _ _ Hin). Qed.

  (** the chains of a valid order *)
  Lemma valid_chains ch : valid g spec tb opt ch ->
    exists heads chains, Forall2 (fun w n => nth_error nodes w = Some n) (ch_order ch) heads /\ Permutation heads nodes /\
      (forall h, In h heads <-> is_head g works h) /\ topological (prerequisite g) heads /\
      chains_of g heads = Some chains /\ NoDup (concat chains) /\ Permutation (concat chains) works /\
      (forall e, In e (g_edges g) -> comes_before (concat chains) (e_from e) (e_to e)) /\
      (forall c, In c chains <-> exists h, is_head g works h /\ chain_of g h = Some c) /\ Z.of_nat (length heads) < TIME_INF.
  Proof.
    intros V. assert (Hnd := to_nodup _ _ _ _ _ _ Htb). destruct (order_heads nodes (ch_order ch) Hnd (v_order _ _ _ _ _ V)) as (heads & F & P).
    assert (Hh : NoDup heads) by (eapply Permutation_NoDup; [apply Permutation_sym; exact P|exact Hnd]).
    assert (Hhd : forall h, In h heads <-> is_head g works h).
    { intros h. rewrite <- (to_heads _ _ _ _ _ _ Htb). split; apply Permutation_in; [exact P|apply Permutation_sym; exact P]. }
    assert (T : topological (prerequisite g) heads) by (apply (transfer nodes (ch_order ch) heads (prerequisite g) F Hh); apply (v_topo _ _ _ _ _ V)).
    destruct (order_chains g works Hg heads Hh Hhd T) as (chains & E & O1 & O2 & O3 & O4).
    exists heads, chains. repeat (split; [assumption|]).
    assert (L := gi_few _ _ _ _ _ _ _ Hin).
    assert (length heads <= length works)%nat by (apply NoDup_incl_length; [exact Hh|]; intros h H; apply Hhd in H; apply H). lia.
  Qed.

  (** the row of a work *)
  Lemma valid_gene ch n amounts ci : valid g spec tb opt ch -> gene nodes ch n amounts ci ->
    exists c border, nth_error cs ci = Some c /\ nth_error (ch_borders ch) ci = Some border /\
        (sp_contractors (spec n) = [] \/ In (ct_id c) (sp_contractors (spec n))) /\
        at_positions names amounts border (fun k a b => a <= b /\
          (forall r, In r (u_reqs (g_unit g n)) -> r_kind r = k -> r_min r <= a <= r_max r) /\
          (~ In k (map r_kind (u_reqs (g_unit g n))) -> a = 0)).
  Proof.
    intros V G. destruct inputs_parts as (H1 & H2 & H3 & _).
    apply (valid_iff g works cs spec prio tb Htb H3) in V. destruct V as [_ [_ R] _ _ _]. apply R. exact G.
  Qed.
  (** every border is within the workforce *)
  Lemma border_within ch ci c k b n : valid g spec tb opt ch -> nth_error cs ci = Some c -> In (k, n) (ct_workers c) ->
    border_for names (ch_borders ch) ci k b -> b <= n.
  Proof.
    intros V Hc Hk (row & j & Hr & Hj & Hb). destruct inputs_parts as (H1 & _).
    destruct (forall2_nth_l _ _ _ (v_borders _ _ _ _ _ V) ci row Hr) as (wf & Hw & W).
    apply forall2_by_nth in W as [WL WN].
    destruct (nth_error wf j) as [x|] eqn:Ex; [|apply nth_error_None in Ex; apply nth_lt in Hb; lia].
    destruct (borders_cells cs (tb_cborders tb) ci c wf j k x (to_cborders _ _ _ _ _ _ Htb) (gi_order _ _ _ _ _ _ _ Hin) Hc Hw Hj Ex) as [H|[_ H]].
    - destruct H1 as [_ H1]. destruct (H1 c (nth_error_In _ _ Hc)) as [Hnd _]. assert (x = n) by (exact (LftLoop.nodup_fst_unique _ _ _ _ Hnd H Hk)). subst x. apply (WN j b n Hb Ex).
    - exfalso. apply H. apply in_map_iff. exists (k, n). auto.
  Qed.
  Lemma workforce_border ch ci c k n : valid g spec tb opt ch -> nth_error cs ci = Some c -> In (k, n) (ct_workers c) ->
    exists b, border_for names (ch_borders ch) ci k b /\ b <= n.
  Proof.
    intros V Hc Hk. destruct inputs_parts as (H1 & _).
    destruct (borders_placed cs (tb_cborders tb) H1 (to_cborders _ _ _ _ _ _ Htb) (gi_order _ _ _ _ _ _ _ Hin) ci c k n Hc Hk) as (wf & j & Hw & Hj & Hn).
    destruct (forall2_nth _ _ _ (v_borders _ _ _ _ _ V) ci wf Hw) as (row & Hr & W). assert (W' := W). apply forall2_by_nth in W' as [WL WN].
    destruct (nth_error row j) as [b|] eqn:Eb; [|apply nth_error_None in Eb; apply nth_lt in Hn; lia].
    exists b. split; [exists row, j; auto|]. apply (WN j b n Eb Hn).
  Qed.
  (** the contractor of a work has the required professions *)
  Lemma gene_kinds ch n amounts ci c r : valid g spec tb opt ch -> gene nodes ch n amounts ci -> nth_error cs ci = Some c ->
    In r (u_reqs (g_unit g n)) -> In (r_kind r) (map fst (ct_workers c)).
  Proof.
    intros V G Hc Hr. destruct inputs_parts as (H1 & H2 & H3 & _).
    destruct (valid_gene ch n amounts ci V G) as (c' & border & Hc' & Hb & _ & L1 & L2 & P). assert (c' = c) by congruence. subst c'.
    assert (Hmin : 0 <= r_min r) by (destruct (H3 n) as [_ Hf]; rewrite Forall_forall in Hf; specialize (Hf r Hr); lia).
    destruct (Z.eq_dec (r_min r) 0) as [E|E]; [apply (gi_kinds _ _ _ _ _ _ _ Hin n r c Hr (nth_error_In _ _ Hc) E)|].
    assert (Hk : In (r_kind r) names).
    { apply (to_kinds _ _ _ _ _ _ Htb n r); [|exact Hr]. destruct G as (w & Hn & _). eapply nth_error_In; eauto. }
    apply In_nth_error in Hk as [j Hj].
    destruct (nth_error amounts j) as [a|] eqn:Ea; [|apply nth_error_None in Ea; apply nth_lt in Hj; lia].
    destruct (nth_error border j) as [b|] eqn:Eb; [|apply nth_error_None in Eb; apply nth_lt in Hj; lia].
    destruct (P j (r_kind r) a b Hj Ea Eb) as (A1 & A2 & _). specialize (A2 r Hr eq_refl).
    destruct (forall2_nth_l _ _ _ (v_borders _ _ _ _ _ V) ci border Hb) as (wf & Hw & W). apply forall2_by_nth in W as [WL WN].
    destruct (nth_error wf j) as [x|] eqn:Ex; [|apply nth_error_None in Ex; apply nth_lt in Eb; lia].
    assert (b <= x) by (apply (WN j b x Eb Ex)).
    destruct (borders_cells cs (tb_cborders tb) ci c wf j (r_kind r) x (to_cborders _ _ _ _ _ _ Htb) (gi_order _ _ _ _ _ _ _ Hin) Hc Hw Hj Ex) as [H'|[H' _]]; [|lia].
    apply in_map_iff. exists (r_kind r, x). auto.
  Qed.
  Lemma valid_chromosome_ok ch : valid g spec tb opt ch -> chromosome_ok ch.
  Proof.
    intros V. destruct inputs_parts as (H1 & H2 & H3 & H4 & H5 & _). split; [|split].
    - intros amounts ci a Hr Ha. apply In_nth_error in Hr as [w Hw].
      assert (Hlt : (w < length (tb_nodes tb))%nat) by (rewrite <- (v_length _ _ _ _ _ V); exact (nth_lt _ _ _ Hw)).
      exact (row_nonneg g works cs spec prio tb Htb H3 _ w _ Hlt (v_rows _ _ _ _ _ V w _ Hw) a Ha).
    - apply (v_nonneg _ _ _ _ _ V).
    - intros n. rewrite (v_spec _ _ _ _ _ V n). split; [apply H5|apply (gi_dict _ _ _ _ _ _ _ Hin)].
  Qed.
  Lemma gene_team_for ch n team cid : valid g spec tb opt ch -> gene_team g names cs nodes ch n team cid ->
    exists c, In c cs /\ cid = ct_id c /\ (sp_contractors (spec n) = [] \/ In (ct_id c) (sp_contractors (spec n))) /\
      team_for c (spec n) (u_reqs (g_unit g n)) team /\
      Forall2 (fun r k => w_contractor k = ct_id c /\ w_kind k = r_kind r /\ 0 <= w_count k /\
                        exists m, In (r_kind r, m) (ct_workers c) /\
                        (sp_workers (spec n) = [] -> r_min r <= w_count k <= r_max r /\ w_count k <= m)) (u_reqs (g_unit g n)) team.
  Proof.
    intros V (amounts & ci & c & G & Hc & Hid & F). destruct (valid_gene ch n amounts ci V G) as (c' & border & Hc' & Hb & Hal & L1 & L2 & P).
    assert (c' = c) by congruence. subst c'. destruct inputs_parts as (H1 & H2 & H3 & H4 & H5 & _).
    exists c. split; [eapply nth_error_In; eauto|]. split; [exact Hid|]. split; [exact Hal|].
    rewrite (v_spec _ _ _ _ _ V n) in F.
    assert (Q : forall r k, In r (u_reqs (g_unit g n)) -> gene_count names (spec n) (u_reqs (g_unit g n)) amounts (r_kind r) k ->
       0 <= k /\ (r_min r <= k <= r_max r \/ In (r_kind r, k) (sp_workers (spec n))) /\
       (sp_workers (spec n) = [] -> r_min r <= k <= r_max r /\ forall m, In (r_kind r, m) (ct_workers c) -> k <= m)).
    { intros r k Hr [[Hs _]|[_ (j & Hj & Hja)]].
      - split; [apply (proj1 (H5 n) _ _ Hs)|]. split; [right; exact Hs|]. intros E. rewrite E in Hs. destruct Hs.
      - destruct (nth_error border j) as [b|] eqn:Ebj; [|apply nth_error_None in Ebj; apply nth_lt in Hj; lia].
        destruct (P j (r_kind r) k b Hj Hja Ebj) as (A1 & A2 & _). specialize (A2 r Hr eq_refl).
        assert (Hmin : 0 <= r_min r) by (destruct (H3 n) as [_ Hf]; rewrite Forall_forall in Hf; specialize (Hf r Hr); lia).
        split; [lia|]. split; [left; lia|]. intros _. split; [lia|]. intros m Hm.
        assert (b <= m) by (apply (border_within ch ci c (r_kind r) b m V Hc Hm); exists border, j; auto). lia. }
    assert (Hsub : forall r, In r (u_reqs (g_unit g n)) -> In r (u_reqs (g_unit g n))) by auto.
    assert (FG : Forall2 (fun r k => In r (u_reqs (g_unit g n)) /\ (w_contractor k = ct_id c /\ w_kind k = r_kind r /\
                        (exists a, In (r_kind r, a) (ct_workers c)) /\
                        gene_count names (spec n) (u_reqs (g_unit g n)) amounts (r_kind r) (w_count k))) (u_reqs (g_unit g n)) team).
    { apply forall2_by_nth in F as [FL FN]. apply forall2_by_nth. split; [exact FL|]. intros j r k Hr Hk. split; [eapply nth_error_In; eauto|apply (FN j r k Hr Hk)]. }
    split.
    - unfold team_for. apply forall2_by_nth in FG as [FL FN]. apply forall2_by_nth. split; [exact FL|]. intros j r k Hr Hk.
      destruct (FN j r k Hr Hk) as (I & E1 & E2 & _ & Gc). destruct (Q r _ I Gc) as (Q1 & Q2 & _). auto.
    - apply forall2_by_nth in FG as [FL FN]. apply forall2_by_nth. split; [exact FL|]. intros j r k Hr Hk.
      destruct (FN j r k Hr Hk) as (I & E1 & E2 & (m & Hm) & Gc). destruct (Q r _ I Gc) as (Q1 & _ & Q3).
      repeat (split; [assumption|]). exists m. split; [exact Hm|]. intros E. destruct (Q3 E) as [Q4 Q5]. split; [exact Q4|apply Q5, Hm].
  Qed.

  Lemma shares_all : forall n c m, chain_of g n = Some c -> In m c -> map r_kind (u_reqs (g_unit g m)) = map r_kind (u_reqs (g_unit g n)).
  Proof.
    intros n c m Hc Hm. destruct (inseparable_parent g n) as [q|] eqn:Eq.
    - unfold chain_of in Hc. rewrite Eq in Hc. destruct (inseparable_son g n); injection Hc as <-; destruct Hm as [<-|[]]; reflexivity.
    - destruct (in_dec Nat.eq_dec n works) as [Hn|Hn].
      + assert (Hhd : is_head g works n) by (split; [exact Hn|apply parent_none; exact Eq]).
        apply (gi_shared _ _ _ _ _ _ _ Hin); [exact Hhd|]. apply (chain_in g works Hg n c Hhd Hc). exact Hm.
      + destruct (inseparable_son g n) as [b|] eqn:Eb.
        * exfalso. apply son_some in Eb as (e & He & _ & Ef & _). apply Hn. rewrite <- Ef. apply (gk_closed _ _ Hg e He).
        * unfold chain_of in Hc. rewrite Eb in Hc. injection Hc as <-. destruct Hm as [<-|[]]. reflexivity.
  Qed.

  (** counts named by the specification are within the borders *)
  Lemma spec_within ch n amounts ci k m b : valid g spec tb opt ch -> gene nodes ch n amounts ci ->
    spec_count (ch_spec ch n) (u_reqs (g_unit g n)) k m -> border_for names (ch_borders ch) ci k b -> m <= b.
  Proof.
    intros V G [Hs _] Hb. rewrite (v_spec _ _ _ _ _ V n) in Hs.
    assert (Eo : opt = false).
    { destruct (bool_dec opt true) as [Eo|Eo]; [|destruct opt; congruence]. rewrite (gi_optimize _ _ _ _ _ _ _ Hin Eo n) in Hs. destruct Hs. }
    destruct (valid_gene ch n amounts ci V G) as (c & border & Hc & _ & Hal & _).
    assert (Hr := gi_required _ _ _ _ _ _ _ Hin n k m Hs). apply in_map_iff in Hr as (r & <- & Hr).
    assert (Hk := gene_kinds ch n amounts ci c r V G Hc Hr). apply in_map_iff in Hk as ([k' x] & Ek & Hx). simpl in Ek. subst k'.
    destruct (gi_counts _ _ _ _ _ _ _ Hin n) as [Hc1 _]. assert (m <= x) by (eapply Hc1; eauto using nth_error_In).
    rewrite (v_fixed _ _ _ _ _ V Eo) in Hb. destruct inputs_parts as (H1 & _).
    destruct (borders_placed cs (tb_cborders tb) H1 (to_cborders _ _ _ _ _ _ Htb) (gi_order _ _ _ _ _ _ _ Hin) ci c _ x Hc Hx) as (row & j & B1 & B2 & B3).
    destruct Hb as (row' & j' & B1' & B2' & B3'). assert (row' = row) by congruence. subst row'.
    assert (j' = j) by (eapply (proj1 (NoDup_nth_error names) (names_nodup cs)); [apply nth_lt in B2'; exact B2'|exact (eq_trans B2' (eq_sym B2))]). subst j'.
    assert (b = x) by congruence. lia.
  Qed.

  (** decoding *)
  Lemma serial_ok ch : valid g spec tb opt ch ->
    exists sd start, serial_decode g est names cs nodes ch apt = Some (sd, start) /\ feasible g cs spec works sd /\ lags_respected g works sd.
  Proof.
    intros V. destruct inputs_parts as (H1 & H2 & H3 & H4 & H5 & H6). destruct (valid_chains ch V) as (heads & chains & F & P & Hh & T & C1 & C2 & C3 & C4 & C5 & Hlen).
    assert (Hck := valid_chromosome_ok ch V).
    destruct (borders_ok_shaped g works cs spec prio tb Htb _ (v_borders _ _ _ _ _ V)) as [Hsh Hlb].
    destruct (gi_times _ _ _ _ _ _ _ Hin) as (D & Lg & (HD & HED) & HL & Hfit).
    set (avail := fun w => match nth_error nodes w with Some n => filter (fun ci => match nth_error cs ci with
                     | Some c => forallb (fun r => mem (r_kind r) (map fst (ct_workers c))) (u_reqs (g_unit g n)) | None => false end) (tb_avail tb w) | None => [] end).
    assert (Hrv : rows_valid (tb_lows tb) (tb_ups tb) avail (ch_borders ch) (ch_rows ch)).
    { intros w [amounts ci] Hr. destruct (v_rows _ _ _ _ _ V w _ Hr) as (A1 & A2 & A3 & A4 & A5). repeat (split; [assumption|]). split; [|split; assumption].
      assert (Hlt : (w < length nodes)%nat) by (unfold nodes; rewrite <- (v_length _ _ _ _ _ V); exact (nth_lt _ _ _ Hr)).
      unfold avail. destruct (nth_error nodes w) as [n|] eqn:En; [|apply nth_error_None in En; lia]. apply filter_In. split; [exact A3|].
      assert (G : gene nodes ch n amounts ci) by (exists w; auto). destruct (valid_gene ch n amounts ci V G) as (c & border & Hc & _). cbn [snd]. rewrite Hc.
      apply forallb_forall. intros r Hrr. apply mem_in. apply (gene_kinds ch n amounts ci c r V G Hc Hrr). }
    destruct (serial_decoding_succeeds g est names cs nodes ch apt (tb_lows tb) (tb_ups tb) avail heads chains D Lg) as (sd & start & E); auto.
    - apply names_nodup.
    - intros c k n Hc Hk. apply names_in. exists c. split; [exact Hc|]. apply in_map_iff. exists (k, n). auto.
    - intros w Hw. rewrite (v_length _ _ _ _ _ V). apply (Permutation_in _ (v_order _ _ _ _ _ V)) in Hw. apply in_seq in Hw. lia.
    - intros w n ci c r Hn Hci Hc Hr. unfold avail in Hci. rewrite Hn in Hci. apply filter_In in Hci as [_ Hci]. rewrite Hc in Hci.
      rewrite forallb_forall in Hci. apply mem_in. apply Hci. exact Hr.
    - intros n Hl r Hr. rewrite (v_spec _ _ _ _ _ V n) in *. destruct (gi_counts _ _ _ _ _ _ _ Hin n) as [_ Hc2]. apply (Hc2 Hl r Hr).
    - intros n amounts ci k m b G Hs Hb. eapply spec_within; eauto.
    - intros n. rewrite (v_spec _ _ _ _ _ V n). apply (gi_no_times _ _ _ _ _ _ _ Hin).
    - intros n c m team cid Hc Hm Gt. destruct (gene_team_for ch n team cid V Gt) as (ct & I1 & _ & _ & Tf & _). eapply HED; eauto.
    - rewrite (Permutation_length C3). exact Hfit.
    - apply (gi_service _ _ _ _ _ _ _ Hin).
    - exact shares_all.
    - exists sd, start. split; [exact E|].
      destruct (serial_decoding_feasible g est names cs nodes ch apt heads chains sd start H1 H2 (names_nodup cs) Hck H3 H4 H6 F C1 C2 Hlen (fun e He _ _ => C4 e He) E)
        as (F1 & F2 & F3 & F4 & F5 & F6 & _).
      assert (Hst : forall hd r n w, In (hd :: r) chains -> In n (hd :: r) -> In (n, w) sd -> staffed g cs spec hd w).
      { intros hd r n w Hc Hn Hw. assert (Gt := F5 hd r n w Hc Hn Hw). destruct (gene_team_for ch hd _ _ V Gt) as (ct & I1 & I2 & I3 & _ & I4).
        exists ct. auto. }
      split.
      + eapply feasible_of; eauto. intros ct k n t Hct Hk. apply In_nth_error in Hct as [ci Hci].
        destruct (workforce_border ch ci ct k n V Hci Hk) as (b & Hb & Hle). specialize (F6 ci ct k n b t Hci Hk Hb). lia.
      + intros e wu wv He Hu Hv Hne. apply (F3 e wu wv He Hu Hv).
        * intros (c & Hc & Hcu & Hcv). apply C5 in Hc as (h & Hh1 & Ec). destruct (chain_in g works Hg h c Hh1 Ec) as (_ & M & _).
          apply M in Hcu, Hcv. apply (Hne h Hh1 Hcu Hcv).
        * destruct (gk_closed _ _ Hg e He) as [_ Hvn].
          destruct (has_head g (graph_chains g works Hg) works (gk_closed _ _ Hg) _ Hvn) as (h & Hh1 & Hh2).
          destruct (inseparable_chain_correct g h (graph_chains g works Hg) (proj2 Hh1)) as (c & Ec & _ & M & _).
          assert (Ec' := Ec). apply chain_head in Ec' as [r ->]. exists h, r. split; [apply C5; eauto|]. split; [apply M; exact Hh2|].
          left. rewrite (v_spec _ _ _ _ _ V h). apply (gi_no_times _ _ _ _ _ _ _ Hin).
  Qed.

  (** valid individuals pass the check in front of the evaluation *)
  Lemma valid_validate ch : valid g spec tb opt ch -> validate cs tb ch = true.
  Proof.
    intros V. destruct inputs_parts as (H1 & H2 & H3 & _). unfold validate. apply andb_true_iff.
    assert (Hno : NoDup (ch_order ch)) by (eapply Permutation_NoDup; [apply Permutation_sym, (v_order _ _ _ _ _ V)|apply seq_NoDup]).
    assert (Hw : forall w, In w (ch_order ch) -> exists n, nth_error nodes w = Some n).
    { intros w Hw. apply (Permutation_in _ (v_order _ _ _ _ _ V)), in_seq in Hw. destruct (nth_error nodes w) as [n|] eqn:E; [eauto|]. apply nth_error_None in E. unfold nodes in E. lia. }
    split.
    - apply (order_check_exact _ _ _ Hno). intros w p Iw Ip. destruct (Hw w Iw) as [n Hn].
      destruct (proj1 (to_parents _ _ _ _ _ _ Htb w n p Hn) Ip) as (m & Hm & Hpre). clear Ip.
      assert (Ip : In p (ch_order ch)).
      { apply (Permutation_in _ (Permutation_sym (v_order _ _ _ _ _ V))). apply in_seq. split; [lia|]. apply nth_lt in Hm. exact Hm. }
      assert (C : comes_before (ch_order ch) p w) by (apply (v_topo _ _ _ _ _ V); eauto). split; [right; exact C|].
      destruct (Z.le_gt_cases (tb_prio tb p) (tb_prio tb w)) as [L|L]; [exact L|]. exfalso.
      apply (comes_before_asym _ _ _ Hno C). apply (v_prio _ _ _ _ _ V); auto.
    - destruct (borders_ok_shaped g works cs spec prio tb Htb _ (v_borders _ _ _ _ _ V)) as [Hsh Hlb].
      destruct (cborders_shaped g works cs spec prio tb Htb) as [Hsc Hlc].
      assert (Hne : ch_rows ch <> []).
      { intros E. assert (L := v_length _ _ _ _ _ V). rewrite E in L. destruct (tb_nodes tb) eqn:En; [|discriminate].
        assert (Hs := gi_some _ _ _ _ _ _ _ Hin). assert (Hx : exists x, In x works) by (clear - Hs; destruct works as [|x l]; [congruence|exists x; left; reflexivity]). destruct Hx as [x Hx].
        destruct (has_head g (graph_chains g _ Hg) _ (gk_closed _ _ Hg) x Hx) as (h & Hh & _). apply (to_heads _ _ _ _ _ _ Htb) in Hh. rewrite En in Hh. destruct Hh. }
      apply (contractors_check_exact (enabled cs tb ch) (length names) (tb_cborders tb) (ch_order ch) (ch_rows ch) (ch_borders ch) Hne); auto; [|rewrite Hlb, Hlc; reflexivity|].
      { intros r Hr. apply In_nth_error in Hr as [w Hr]. destruct (v_rows _ _ _ _ _ V w r Hr) as (A1 & A2 & A3 & A4 & A5). split; [|exact A4].
        rewrite (within_length _ _ A5). apply Hsh. apply nth_In. exact A4. }
      split.
      + intros w Iw. destruct (Hw w Iw) as [n Hn]. unfold enabled. fold nodes. rewrite Hn. rewrite (v_spec _ _ _ _ _ V n).
        destruct (nth_error (ch_rows ch) w) as [[amounts ci]|] eqn:Er.
        2: { apply nth_error_None in Er. rewrite (v_length _ _ _ _ _ V) in Er. apply nth_lt in Hn. unfold nodes in Hn. lia. }
        rewrite (nth_error_nth _ _ _ Er). cbn [snd]. destruct (v_rows _ _ _ _ _ V w _ Er) as (_ & _ & A3 & _). cbn [snd] in A3.
        destruct (proj1 (to_avail _ _ _ _ _ _ Htb w n ci Hn) A3) as (c & Hc & Ha). destruct (sp_contractors (spec n)) as [|x l]; [reflexivity|].
        destruct Ha as [Ha|Ha]; [discriminate|]. apply mem_in. rewrite (nth_error_nth (map ct_id cs) ci 0%nat (x := ct_id c)); [exact Ha|]. rewrite nth_error_map, Hc. reflexivity.
      + intros a c Hac. apply In_nth_error in Hac as [w Hr]. destruct (v_rows _ _ _ _ _ V w _ Hr) as (A1 & A2 & A3 & A4 & A5). cbn [fst snd] in *. split; [exact A5|].
        assert (Hb : nth_error (ch_borders ch) c = Some (nth c (ch_borders ch) [])) by (apply nth_error_nth'; exact A4).
        destruct (forall2_nth_l _ _ _ (v_borders _ _ _ _ _ V) c _ Hb) as (wf & Hwf & W). rewrite (nth_error_nth _ _ _ Hwf). exact W.
  Qed.
End Serial.
