(** Individuals of the genetic scheduler decode in the parallel scheme. *)
From Coq Require Import ZArith List Bool Lia Arith Relations Permutation ZifyBool ZifyNat.
From Verif Require Import TimeModel MomentumModel JITModel MomentumSpec GraphModel ScheduleModel ScheduleSpec TeamProofs ScheduleInv ScheduleTheorems LftLoop Digraph TopoModel TopoProofs
  TraverseModel ValidationModel OrderModel HeadModel HeadProofs HeadTheorems GeneticModel GeneticResModel GeneticResTheorems
  PriorityModel PipelineModel PipelineTheorems SgsModel SgsSpec SgsParallelTheorems GaModel GaSchedModel GaSchedSpec GaSchedProofs GaSchedSerial.
Import ListNotations.
Local Open Scope Z_scope.

(** What the parallel scheme needs besides [genetic_inputs]: no fixed counts, no negative
    lags inside chains, and room for the times of all teams of one contractor. *)
Record parallel_inputs (g : graph) (works : list nat) (est : nat -> list worker -> Z) (cs : list contractor)
       (spec : nat -> work_spec) (apt D Lg : Z) : Prop := {
  pi_counts : forall n, sp_workers (spec n) = [];
  pi_chain_lags : inseparable_lags_ok g;
  pi_bound : 0 <= D /\ forall m ct team, In ct cs -> NoDup (map w_kind team) ->
    (forall w, In w team -> w_contractor w = ct_id ct /\ 0 < w_count w) -> est m team <= D;
  pi_lags : 0 <= Lg /\ forall e, In e (g_edges g) -> e_lag e <= Lg;
  pi_room : apt + (Z.of_nat (length works) + 1) * (D + 2 * Lg + 1) < TIME_INF }.

(** The team of a work in the parallel scheme: workers of one allowed contractor, for each
    required profession a number within the limits, zero if there is no worker. *)
Definition staffed_anyhow (g : graph) (cs : list contractor) (spec : nat -> work_spec) (h : nat) (w : swork) : Prop :=
  exists ct, In ct cs /\ sw_contractor w = ct_id ct /\
    (sp_contractors (spec h) = [] \/ In (ct_id ct) (sp_contractors (spec h))) /\
    NoDup (map w_kind (sw_team w)) /\
    (forall k, In k (sw_team w) -> w_contractor k = ct_id ct /\ 0 < w_count k /\
       (exists r, In r (u_reqs (g_unit g h)) /\ r_kind r = w_kind k /\ r_min r <= w_count k <= r_max r) /\
       (exists n, In (w_kind k, n) (ct_workers ct) /\ w_count k <= n)) /\
    (forall r, In r (u_reqs (g_unit g h)) -> 0 < r_min r -> exists k, In k (sw_team w) /\ w_kind k = r_kind r).
Record parallel_feasible (g : graph) (cs : list contractor) (spec : nat -> work_spec) (works : list nat) (sd : sched) : Prop := {
  pf_works : Permutation (map fst sd) works;
  pf_times : forall n w, In (n, w) sd -> 0 <= sw_start w <= sw_finish w /\ sw_finish w <= TIME_INF;
  pf_chains : forall u v wu wv, inseparable g u v -> In (u, wu) sd -> In (v, wv) sd ->
    sw_finish wu <= sw_start wv /\ sw_team wu = sw_team wv /\ sw_contractor wu = sw_contractor wv;
  pf_teams : forall h n w, is_head g works h -> in_chain g h n -> In (n, w) sd -> staffed_anyhow g cs spec h w;
  pf_capacity : forall ct k n t, In ct cs -> In (k, n) (ct_workers ct) -> busy (schedule_bookings sd) (ct_id ct, k) t <= n;
  (* dependencies, except on the works of independent chains *)
  pf_lags : forall e h wu wv, In e (g_edges g) -> In (e_from e, wu) sd -> In (e_to e, wv) sd ->
    is_head g works h -> in_chain g h (e_to e) -> sp_independent (spec h) = false ->
    tadd (sw_finish wu) (e_lag e) <= sw_start wv }.

Section Parallel.
  Variable g : graph.
  Variable works : list nat.
  Variable est : nat -> list worker -> Z.
  Variable cs : list contractor.
  Variable spec : nat -> work_spec.
  Variable prio : nat -> Z.
  Variable apt : Z.
  Variable opt : bool.
  Variable tb : toolbox.
  Variables D Lg : Z.
  Hypothesis Hin : genetic_inputs g works est cs spec apt opt.
  Hypothesis Hpi : parallel_inputs g works est cs spec apt D Lg.
  Hypothesis Htb : tb_ok g works cs spec prio tb.
  Let Hg := gi_graph _ _ _ _ _ _ _ Hin.
  Let nodes := tb_nodes tb.
  Let names := worker_names cs.

  Lemma amount_cell ch n amounts ci k a : valid g spec tb opt ch -> gene nodes ch n amounts ci -> row_amount names amounts k a ->
    exists c b, nth_error cs ci = Some c /\ border_for names (ch_borders ch) ci k b /\ a <= b /\
      (sp_contractors (spec n) = [] \/ In (ct_id c) (sp_contractors (spec n))) /\
      (forall r, In r (u_reqs (g_unit g n)) -> r_kind r = k -> r_min r <= a <= r_max r) /\
      (~ In k (map r_kind (u_reqs (g_unit g n))) -> a = 0).
  Proof.
    intros V G (j & Hj & Ha). destruct (valid_gene g works est cs spec prio apt opt tb Hin Htb ch n amounts ci V G) as (c & border & Hc & Hb & Hal & L1 & L2 & P).
    destruct (nth_error border j) as [b|] eqn:Eb.
    - destruct (P j k a b Hj Ha Eb) as (P1 & P2 & P3). exists c, b. split; [exact Hc|]. split; [exists border, j; auto|]. auto.
    - exfalso. apply nth_error_None in Eb. apply nth_lt in Hj. fold names in L2. lia.
  Qed.
  Lemma border_zero ch ci c k b : valid g spec tb opt ch -> nth_error cs ci = Some c -> border_for names (ch_borders ch) ci k b ->
    ~ In k (map fst (ct_workers c)) -> b = 0.
  Proof.
    intros V Hc (row & j & Hr & Hj & Hb) Hk. destruct (forall2_nth_l _ _ _ (v_borders _ _ _ _ _ V) ci row Hr) as (wf & Hw & W).
    apply forall2_by_nth in W as [WL WN].
    destruct (nth_error wf j) as [x|] eqn:Ex; [|apply nth_error_None in Ex; apply nth_lt in Hb; lia].
    destruct (borders_cells cs (tb_cborders tb) ci c wf j k x (to_cborders _ _ _ _ _ _ Htb) (gi_order _ _ _ _ _ _ _ Hin) Hc Hw Hj Ex) as [H|[-> _]].
    - exfalso. apply Hk. apply in_map_iff. exists (k, x). auto.
    - assert (A := WN j b 0 Hb Ex). assert (B := v_nonneg _ _ _ _ _ V row b (nth_error_In _ _ Hr) (nth_error_In _ _ Hb)). lia.
  Qed.
  Lemma row_functional k a b amounts : row_amount names amounts k a -> row_amount names amounts k b -> a = b.
  Proof.
    intros (j & Hj & Ha) (j' & Hj' & Hb).
    assert (j' = j) by (eapply (proj1 (NoDup_nth_error names) (names_nodup cs)); [apply nth_lt in Hj'; exact Hj'|exact (eq_trans Hj' (eq_sym Hj))]). congruence.
  Qed.
  Lemma team_staffed ch h w : valid g spec tb opt ch -> is_head g works h -> parallel_gene_team g names cs nodes ch h (sw_team w) (sw_contractor w) ->
    staffed_anyhow g cs spec h w.
  Proof.
    intros V Hh (amounts & ci & c & G & Hc & Ec & Hnd & T).
    assert (Hal : sp_contractors (spec h) = [] \/ In (ct_id c) (sp_contractors (spec h))).
    { destruct (valid_gene g works est cs spec prio apt opt tb Hin Htb ch h amounts ci V G) as (c' & _ & Hc' & _ & Hal & _). assert (c' = c) by congruence. subst. exact Hal. }
    assert (Hno : forall k m, ~ spec_count (ch_spec ch h) (u_reqs (g_unit g h)) k m).
    { intros k m [Hs _]. rewrite (v_spec _ _ _ _ _ V h), (pi_counts _ _ _ _ _ _ _ _ Hpi h) in Hs. destruct Hs. }
    exists c. split; [eapply nth_error_In; exact Hc|]. split; [exact Ec|]. split; [exact Hal|]. split; [exact Hnd|]. split.
    - intros k Hk. apply T in Hk as (kd & a & m & Ra & Hpos & -> & Hm). cbn [w_contractor w_kind w_count].
      assert (Em : m = a).
      { destruct Hm as [[_ [Hs|[_ (j & J1 & J2)]]]|[_ Hm]]; [exfalso; eapply Hno; eauto| |exact Hm]. apply (row_functional kd m a amounts); [exists j; auto|exact Ra]. }
      subst m. destruct (amount_cell ch h amounts ci kd a V G Ra) as (c' & b & Hc' & Hb & Hab & _ & Hr & Hz).
      assert (c' = c) by congruence. subst c'. split; [reflexivity|]. split; [exact Hpos|]. split.
      + destruct (in_dec Nat.eq_dec kd (map r_kind (u_reqs (g_unit g h)))) as [Hk|Hk]; [|specialize (Hz Hk); lia].
        apply in_map_iff in Hk as (r & Ek & Hr'). exists r. split; [exact Hr'|]. split; [exact Ek|]. apply Hr; assumption.
      + destruct (in_dec Nat.eq_dec kd (map fst (ct_workers c))) as [Hk|Hk].
        * apply in_map_iff in Hk as ([k' x] & Ek & Hx). simpl in Ek. subst k'. exists x. split; [exact Hx|].
          assert (b <= x) by (eapply (border_within g works est cs spec prio apt opt tb Hin Htb ch ci c kd b x V); eauto). lia.
        * exfalso. assert (b = 0) by (eapply border_zero; eauto). lia.
    - intros r Hr Hmin.
      assert (Hk : In (r_kind r) names) by (apply (to_kinds _ _ _ _ _ _ Htb h r); [apply (to_heads _ _ _ _ _ _ Htb); exact Hh|exact Hr]).
      destruct (valid_gene g works est cs spec prio apt opt tb Hin Htb ch h amounts ci V G) as (c' & border & _ & _ & _ & L1 & _).
      apply In_nth_error in Hk as [j Hj]. destruct (nth_error amounts j) as [a|] eqn:Ea; [|apply nth_error_None in Ea; apply nth_lt in Hj; fold names in L1; lia].
      assert (Ra : row_amount names amounts (r_kind r) a) by (exists j; auto).
      destruct (amount_cell ch h amounts ci (r_kind r) a V G Ra) as (_ & _ & _ & _ & _ & _ & Hl & _). specialize (Hl r Hr eq_refl).
      exists (Wk (ct_id c) (r_kind r) a). split; [|reflexivity]. apply T. exists (r_kind r), a, a. split; [exact Ra|]. split; [lia|]. split; [reflexivity|].
      left. split; [apply in_map; exact Hr|]. right. split; [intros m; apply Hno|]. destruct Ra as (j' & J1 & J2). exists j'. auto.
  Qed.

  Definition enough : nat := parallel_iterations (length nodes) (Z.to_nat (apt + (Z.of_nat (length works) + 1) * (D + 2 * Lg + 1))).
  Lemma parallel_ok ch : valid g spec tb opt ch ->
    exists s, (forall fuel, (enough <= fuel)%nat -> parallel_decode g est names cs nodes ch apt fuel = Finished [] s) /\
      parallel_feasible g cs spec works (ps_sched s).
  Proof.
    intros V. destruct (inputs_parts _ _ _ _ _ _ _ Hin) as (H1 & H2 & H3 & H4 & H5 & H6).
    destruct (valid_chains g works est cs spec prio apt opt tb Hin Htb ch V) as (heads & chains & F & P & Hh & T & C1 & C2 & C3 & C4 & C5 & Hlen).
    assert (Hck := valid_chromosome_ok g works est cs spec prio apt opt tb Hin Htb ch V).
    destruct (borders_ok_shaped g works cs spec prio tb Htb _ (v_borders _ _ _ _ _ V)) as [Hsh Hlb].
    destruct (pi_bound _ _ _ _ _ _ _ _ Hpi) as [HD HED]. assert (HL := pi_lags _ _ _ _ _ _ _ _ Hpi).
    assert (Hno : forall n k m, ~ spec_count (ch_spec ch n) (u_reqs (g_unit g n)) k m).
    { intros n k m [Hs _]. rewrite (v_spec _ _ _ _ _ V n), (pi_counts _ _ _ _ _ _ _ _ Hpi n) in Hs. destruct Hs. }
    assert (Hrow : forall n amounts ci k a b, gene nodes ch n amounts ci -> row_amount names amounts k a -> border_for names (ch_borders ch) ci k b -> a <= b).
    { intros n amounts ci k a b G Ra (row & j & B1 & B2 & B3). destruct (amount_cell ch n amounts ci k a V G Ra) as (_ & b' & _ & (row' & j' & B1' & B2' & B3') & Hab & _).
      assert (row' = row) by congruence. subst row'.
      assert (j' = j) by (eapply (proj1 (NoDup_nth_error names) (names_nodup cs)); [apply nth_lt in B2'; exact B2'|exact (eq_trans B2' (eq_sym B2))]). subst j'. congruence. }
    destruct (parallel_decoding_ends_within g est names cs nodes ch apt (tb_lows tb) (tb_ups tb) (tb_avail tb) heads chains D Lg) as (s & E); auto.
    - apply names_nodup.
    - apply (v_rows _ _ _ _ _ V).
    - intros c k n Hc Hk. apply names_in. exists c. split; [exact Hc|]. apply in_map_iff. exists (k, n). auto.
    - intros ci c k b Hc Hb Hk. eapply border_zero; eauto.
    - intros w Hw. rewrite (v_length _ _ _ _ _ V). apply (Permutation_in _ (v_order _ _ _ _ _ V)) in Hw. apply in_seq in Hw. lia.
    - intros n Hl r Hr. exfalso. rewrite (v_spec _ _ _ _ _ V n), (pi_counts _ _ _ _ _ _ _ _ Hpi n) in Hl. destruct (u_reqs (g_unit g n)); [destruct Hr|discriminate].
    - intros n amounts ci k a m _ _ _ Hs. exfalso. eapply Hno; eauto.
    - intros e e' He He' Ht Ht' Eq. apply (gk_single_parent _ _ Hg (e_from e) (e_from e') (e_to e)); [exists e; auto|exists e'; auto].
    - apply (pi_chain_lags _ _ _ _ _ _ _ _ Hpi).
    - intros n Hn. apply parent_none. apply Hh. exact Hn.
    - intros n c m tm _ _ (amounts & ci & ct & _ & Hct & Hnd & Htm). apply (HED m ct tm); [eapply nth_error_In; eauto|exact Hnd|].
      intros w Hw. apply Htm in Hw as (k & a & _ & Ha & ->). auto.
    - intros n t Ht. exfalso. rewrite (v_spec _ _ _ _ _ V n), (gi_no_times _ _ _ _ _ _ _ Hin n) in Ht. discriminate.
    - rewrite (Permutation_length C3). apply (pi_room _ _ _ _ _ _ _ _ Hpi).
    - exists s. split.
      { intros fuel Hf. apply E. rewrite (Permutation_length C3), (Permutation_length P). exact Hf. }
      assert (Hfirst : forall hd r l n q, chains = (hd :: r) :: l -> sp_independent (ch_spec ch hd) = false -> In n (hd :: r) -> In q (parents g n) -> In q (hd :: r)).
      { intros hd r l n q Ec _ Hn Hq. unfold parents in Hq. apply in_map_iff in Hq as (e & <- & He). apply filter_In in He as [He _]. unfold edges_to in He.
        apply filter_In in He as [He Hto]. apply Nat.eqb_eq in Hto. assert (Hb := C4 e He). rewrite Ec in Hb, C2. cbn [concat] in Hb, C2.
        apply comes_before_prefix in Hb; [apply (comes_before_in _ _ _ Hb)|exact C2|rewrite Hto; exact Hn]. }
      assert (Hins : forall c e, In c chains -> In e (g_edges g) -> In (e_from e) c -> In (e_to e) c -> comes_before c (e_from e) (e_to e)).
      { intros c e Hc He I1 I2. assert (Hb := C4 e He). apply in_split in Hc as (l1 & l2 & Ec).
        assert (Ec' : concat chains = concat l1 ++ c ++ concat l2) by (rewrite Ec, concat_app; reflexivity). rewrite Ec' in Hb, C2.
        destruct (comes_before_total c (e_from e) (e_to e) I1 I2) as [Hx|Hx]; [|exact Hx|].
        - intros Eq. rewrite Eq in Hb. exact (comes_before_irrefl _ _ C2 Hb).
        - exfalso. apply (comes_before_asym _ _ _ C2 Hb). apply SgsParallel.comes_before_ext. exact Hx. }
      assert (Hsp : forall n amounts ci k a m, gene nodes ch n amounts ci -> row_amount names amounts k a -> 0 < a ->
        spec_count (ch_spec ch n) (u_reqs (g_unit g n)) k m -> m <= a) by (intros n amounts ci k a m _ _ _ Hs; exfalso; eapply Hno; eauto).
      destruct (parallel_decoding_feasible g est names cs nodes ch apt heads chains _ [] s H1 H2 (names_nodup cs) Hck H4 H6 F C1 C2 Hrow Hsp Hfirst Hins (E _ (Nat.le_refl _)))
        as (F1 & F2 & F3 & F4 & F5 & F6 & F7 & _).
      assert (Hchain : forall h, is_head g works h -> exists r, chain_of g h = Some (h :: r) /\ In (h :: r) chains).
      { intros h Hh1. destruct (inseparable_chain_correct g h (graph_chains g works Hg) (proj2 Hh1)) as (c & Ec & _).
        assert (Ec' := Ec). apply chain_head in Ec' as [r ->]. exists r. split; [exact Ec|]. apply C5. eauto. }
      constructor.
      + apply NoDup_Permutation; [exact F1|apply (gk_nodup _ _ Hg)|]. intros x. split; intros Hx.
        * apply (Permutation_in _ C3). apply F2. left. exact Hx.
        * apply (Permutation_in _ (Permutation_sym C3)) in Hx. apply F2 in Hx as [Hx|(q & _ & [] & _)]. exact Hx.
      + exact F3.
      + intros u v wu wv Hi Hu Hv. assert (Hi' := Hi). destruct Hi' as (e & He & _ & Ef & Et).
        destruct (gk_closed _ _ Hg e He) as [Hun _]. rewrite Ef in Hun.
        destruct (has_head g (graph_chains g works Hg) works (gk_closed _ _ Hg) u Hun) as (h & Hh1 & Hh2).
        destruct (Hchain h Hh1) as (r & E' & Hc). apply (F5 (h :: r) u v); auto.
        apply (chain_in g works Hg h (h :: r) Hh1 E'). split; [exact Hh2|apply t_step; exact Hi].
      + intros h n w Hh1 Hn Hw. destruct (Hchain h Hh1) as (r & E' & Hc).
        apply (team_staffed ch h w V Hh1). apply (F6 h r n w Hc); [|exact Hw]. apply (chain_in g works Hg h (h :: r) Hh1 E'). exact Hn.
      + intros ct k n t Hct Hk. apply In_nth_error in Hct as [ci Hci].
        destruct (workforce_border g works est cs spec prio apt opt tb Hin Htb ch ci ct k n V Hci Hk) as (b & Hb & Hle). specialize (F7 ci ct k n b t Hci Hk Hb). lia.
      + intros e h wu wv He Hu Hv Hh1 Hn Hi. destruct (Hchain h Hh1) as (r & E' & Hc).
        destruct (F4 e h r wv He (gk_types _ _ Hg e He) Hc) as (wu' & Hu' & L); [apply (chain_in g works Hg h (h :: r) Hh1 E'); exact Hn|rewrite (v_spec _ _ _ _ _ V h); exact Hi|exact Hv|].
        replace wu with wu'; [exact L|]. exact (LftLoop.nodup_fst_unique _ _ _ _ F1 Hu' Hu).
  Qed.
End Parallel.
