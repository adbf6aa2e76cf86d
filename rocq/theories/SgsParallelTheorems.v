(** Properties C58, C59: decoding of chromosomes, parallel scheme.
    Vocabulary: [SgsSpec], [ScheduleSpec], [GeneticResTheorems]. *)
From Coq Require Import ZArith List Bool Lia Arith ZifyBool ZifyNat Permutation.
From Verif Require Import TimeModel MomentumModel JITModel MomentumSpec MomentumHistory MomentumTeamProofs
  GraphModel ScheduleModel ScheduleSpec TeamProofs ScheduleProofs ScheduleInv ScheduleSafe JitScheduleInv JITProofs JitScheduleSafe SchedulePoolProofs ContractorProofs
  ScheduleTheorems GeneticResModel GeneticResTheorems SgsModel SgsSpec SgsSerial SgsParallel SgsParallelSafe SgsRound SgsTheorems.
Import ListNotations.
Local Open Scope Z_scope.

(** C58. [rest] are the works that were not placed. A row asks for no more workers than the
    borders and a specified number of workers is not above that of the row; the chain of
    the first work has no predecessor outside. The order need not be topological. *)
Theorem parallel_decoding_feasible :
  forall g est names cs nodes ch apt heads chains fuel rest s,
    contractors_ok cs -> estimator_ok est -> NoDup names -> chromosome_ok ch ->
    (forall n, 0 <= u_volume (g_unit g n)) -> 0 <= apt <= TIME_INF ->
    Forall2 (fun w n => nth_error nodes w = Some n) (ch_order ch) heads ->
    chains_of g heads = Some chains -> NoDup (concat chains) ->
    (forall n amounts ci k a b, gene nodes ch n amounts ci -> row_amount names amounts k a ->
       border_for names (ch_borders ch) ci k b -> a <= b) ->
    (forall n amounts ci k a m, gene nodes ch n amounts ci -> row_amount names amounts k a -> 0 < a ->
       spec_count (ch_spec ch n) (u_reqs (g_unit g n)) k m -> m <= a) ->
    (forall hd r l n q, chains = (hd :: r) :: l -> sp_independent (ch_spec ch hd) = false ->
       In n (hd :: r) -> In q (parents g n) -> In q (hd :: r)) ->
    (forall c e, In c chains -> In e (g_edges g) -> In (e_from e) c -> In (e_to e) c -> comes_before c (e_from e) (e_to e)) ->
    parallel_decode g est names cs nodes ch apt fuel = Finished rest s ->
    (* no work twice, and every work is placed or reported as not placed *)
    NoDup (map fst (ps_sched s)) /\
    (forall n, In n (concat chains) <->
       In n (map fst (ps_sched s)) \/ exists q c, In q rest /\ chain_of g (pw_node q) = Some c /\ In n c) /\
    (* proper intervals *)
    (forall n w, In (n, w) (ps_sched s) -> 0 <= sw_start w <= sw_finish w /\ sw_finish w <= TIME_INF) /\
    (* the predecessors of works that are not independent are placed and finish before *)
    (forall e hd r wv, In e (g_edges g) -> is_dependency (e_type e) = true -> In (hd :: r) chains -> In (e_to e) (hd :: r) ->
       sp_independent (ch_spec ch hd) = false -> In (e_to e, wv) (ps_sched s) ->
       exists wu, In (e_from e, wu) (ps_sched s) /\ tadd (sw_finish wu) (e_lag e) <= sw_start wv) /\
    (* chains *)
    (forall c u v wu wv, In c chains -> comes_before c u v -> In (u, wu) (ps_sched s) -> In (v, wv) (ps_sched s) ->
       sw_finish wu <= sw_start wv /\ sw_team wu = sw_team wv /\ sw_contractor wu = sw_contractor wv) /\
    (* teams as the chromosome and the specification say *)
    (forall hd r n w, In (hd :: r) chains -> In n (hd :: r) -> In (n, w) (ps_sched s) ->
       parallel_gene_team g names cs nodes ch hd (sw_team w) (sw_contractor w)) /\
    (* never more workers than the border *)
    (forall ci c k a b t, nth_error cs ci = Some c -> In (k, a) (ct_workers c) -> border_for names (ch_borders ch) ci k b ->
       busy (schedule_bookings (ps_sched s)) (ct_id c, k) t <= b) /\
    (* a work outside of chains lasts as long as specified or as the estimator says for the team of the row *)
    (forall n w, In (n, w) (ps_sched s) -> chain_of g n = Some [n] -> inseparable_parent g n = None ->
      exists tm, row_team names cs nodes ch n tm /\
        sw_finish w = tadd (sw_start w) (match sp_time (ch_spec ch n) with Some t => t | None => est n tm end)).
Proof. exact parallel_decode_feasible. Qed.
Print Assumptions parallel_decoding_feasible.

Lemma parallel_team_total names c : forall amounts i, (length amounts + i <= length names)%nat ->
  (forall j a k, nth_error amounts j = Some a -> 0 < a -> nth_error names (i + j) = Some k -> In k (map fst (ct_workers c))) ->
  exists tm, parallel_team names c i amounts = Some tm.
Proof.
  induction amounts as [|n r IH]; intros i Hl H; cbn [parallel_team]; [eauto|]. simpl in Hl.
  destruct (IH (S i)) as [tm Htm]; [lia| |].
  { intros j a k Hj Ha Hk. apply (H (S j) a k Hj Ha). rewrite <- Hk. f_equal. lia. }
  destruct (Z.ltb_spec 0 n) as [Hn|Hn]; [|eauto].
  destruct (nth_error names i) as [k|] eqn:Ek; [|apply nth_error_None in Ek; lia].
  assert (Hk : In k (map fst (ct_workers c))) by (apply (H O n k eq_refl Hn); rewrite Nat.add_0_r; exact Ek).
  assert (Hg : exists x, assoc_get (ct_workers c) k = Some x).
  { clear -Hk. induction (ct_workers c) as [|[k' x] l IH]; [destruct Hk|]. cbn [assoc_get]. simpl in Hk.
    destruct (Nat.eqb_spec k' k); [eauto|]. destruct Hk; [congruence|auto]. }
  destruct Hg as [x ->]. rewrite Htm. eauto.
Qed.

(** A bound on the iterations of the main loop for [n] works that end by time [t]. *)
Definition parallel_iterations (n t : nat) : nat := ((n + 1) * (2 * n + 2) * (t + 1))%nat.
(** C59, with a number of iterations that suffices; the hypotheses are those of
    [parallel_decoding_ends] below. *)
Theorem parallel_decoding_ends_within :
  forall g est names cs nodes ch apt lows ups avail heads chains D Lg,
    contractors_ok cs -> estimator_ok est -> NoDup names -> chromosome_ok ch ->
    (forall n, 0 <= u_volume (g_unit g n)) -> 0 <= apt <= TIME_INF ->
    rows_valid lows ups avail (ch_borders ch) (ch_rows ch) ->
    shaped (length names) (ch_borders ch) -> length (ch_borders ch) = length cs ->
    (forall c k n, In c cs -> In (k, n) (ct_workers c) -> In k names) ->
    (forall ci c k b, nth_error cs ci = Some c -> border_for names (ch_borders ch) ci k b ->
       ~ In k (map fst (ct_workers c)) -> b = 0) ->
    Forall2 (fun w n => nth_error nodes w = Some n) (ch_order ch) heads ->
    (forall w, In w (ch_order ch) -> (w < length (ch_rows ch))%nat) ->
    (forall n, length (sp_workers (ch_spec ch n)) = length (u_reqs (g_unit g n)) ->
       forall r, In r (u_reqs (g_unit g n)) -> In (r_kind r) (map fst (sp_workers (ch_spec ch n)))) ->
    (forall n amounts ci k a m, gene nodes ch n amounts ci -> row_amount names amounts k a -> 0 < a ->
       spec_count (ch_spec ch n) (u_reqs (g_unit g n)) k m -> m <= a) ->
    chains_of g heads = Some chains -> NoDup (concat chains) ->
    (forall e, In e (g_edges g) -> is_dependency (e_type e) = true -> In (e_to e) (concat chains) ->
       comes_before (concat chains) (e_from e) (e_to e)) ->
    single_inseparable_parent g -> inseparable_lags_ok g -> (forall n, In n heads -> inseparable_parent g n = None) ->
    0 <= D -> (forall n c m tm, chain_of g n = Some c -> In m c -> row_team names cs nodes ch n tm -> est m tm <= D) ->
    (forall n t, sp_time (ch_spec ch n) = Some t -> t <= D) ->
    (0 <= Lg /\ forall e, In e (g_edges g) -> e_lag e <= Lg) ->
    apt + (Z.of_nat (length (concat chains)) + 1) * (D + 2 * Lg + 1) < TIME_INF ->
    exists s, forall fuel, (parallel_iterations (length heads) (Z.to_nat (apt + (Z.of_nat (length (concat chains)) + 1) * (D + 2 * Lg + 1))) <= fuel)%nat ->
      parallel_decode g est names cs nodes ch apt fuel = Finished [] s.
Proof.
  intros g est names cs nodes ch apt lows ups avail heads chains D Lg Hcs Hest Hnm Hch Hvol Hapt Hrv Hsh Hlb Hkn Hzero Ho Hrows
    Hfull Hspc Hc Hnd Hclosed Hsi Hla Hpar HD0 HD HDt HL Hinf.
  assert (Hborder : forall ci c k n, nth_error cs ci = Some c -> In (k, n) (ct_workers c) -> exists b, border_at names ch ci k = Some b).
  { intros ci c k n Hci Hin. assert (Hk := Hkn c k n (nth_error_In _ _ Hci) Hin).
    assert (Hlt : (ci < length (ch_borders ch))%nat) by (rewrite Hlb; apply nth_error_Some; congruence).
    unfold border_at. destruct (nth_error (ch_borders ch) ci) as [row|] eqn:Er; [|apply nth_error_None in Er; lia].
    destruct (index_of_in _ _ Hk) as [j Hj]. rewrite Hj. apply nth_error_In, Hsh in Er.
    destruct (nth_error row j) as [b|] eqn:Eb; [eauto|]. apply nth_error_None in Eb.
    assert (j < length names)%nat by (eapply index_of_length; eauto). lia. }
  destruct (with_borders_total names ch cs 0) as [bcs Hbcs].
  { intros i c k n Hi Hin. exact (Hborder i c k n Hi Hin). }
  assert (Hcell : forall w amounts ci, nth_error (ch_rows ch) w = Some (amounts, ci) ->
    exists c row, nth_error cs ci = Some c /\ nth_error (ch_borders ch) ci = Some row /\ length amounts = length names /\
      forall j a, nth_error amounts j = Some a -> exists b, nth_error row j = Some b /\ a <= b).
  { intros w amounts ci Er. destruct (Hrv w _ Er) as (V1 & V2 & V3 & V4 & V5). cbn [fst snd] in *.
    destruct (nth_error cs ci) as [c|] eqn:Ec; [|apply nth_error_None in Ec; lia].
    destruct (nth_error (ch_borders ch) ci) as [row|] eqn:Erow; [|apply nth_error_None in Erow; lia].
    assert (E : nth ci (ch_borders ch) [] = row) by (apply nth_error_nth; exact Erow). rewrite E in V5.
    exists c, row. split; [reflexivity|]. split; [reflexivity|]. split.
    - rewrite <- (Hsh row (nth_error_In _ _ Erow)). eapply Forall2_len; eauto.
    - clear -V5. induction V5 as [|x y l l' Hxy _ IH]; intros [|j] a Ha; simpl in *; try discriminate; [injection Ha as <-; eauto|auto]. }
  assert (Hrow : forall n amounts ci k a b, gene nodes ch n amounts ci -> row_amount names amounts k a ->
       border_for names (ch_borders ch) ci k b -> a <= b).
  { intros n amounts ci k a b (w & _ & Er) (j & J1 & J2) (row & j' & B1 & B2 & B3).
    destruct (Hcell w amounts ci Er) as (c & row' & _ & C2 & _ & C4). assert (row' = row) by congruence. subst row'.
    assert (j = j') by (eapply (proj1 (NoDup_nth_error names)); [exact Hnm|apply nth_error_Some; congruence|congruence]). subst j'.
    destruct (C4 j a J2) as (b' & Hb' & Hle). congruence. }
  assert (Hdec : exists works, decode_works g est names cs nodes ch 0 (ch_order ch) = Some works).
  { assert (Hone : forall w n pos, In w (ch_order ch) -> nth_error nodes w = Some n -> In n heads -> exists q, decode_work g est names cs nodes ch pos w = Some q).
    { intros w n pos Hw Hn Hh. unfold decode_work. rewrite Hn.
      destruct (nth_error (ch_rows ch) w) as [[amounts ci]|] eqn:Er; [|apply nth_error_None in Er; specialize (Hrows w Hw); lia].
      destruct (Hcell w amounts ci Er) as (c & row & C1 & C2 & C3 & C4). rewrite C1.
      destruct (parallel_team_total names c amounts 0) as [tm Htm]; [lia| |].
      { intros j a k Hj Ha Hk. simpl in Hk. destruct (in_dec Nat.eq_dec k (map fst (ct_workers c))) as [?|Hni]; [assumption|].
        exfalso. destruct (C4 j a Hj) as (b & Hb & Hle). assert (b = 0); [|lia].
        apply (Hzero ci c k b C1); [exists row, j; auto|exact Hni]. }
      rewrite Htm. destruct (sp_time (ch_spec ch n)); [eauto|]. unfold cascade_time. rewrite (Hpar n Hh).
      destruct (chains_of_in g heads chains n Hc Hh) as (cn & -> & _). eauto. }
    generalize 0%nat as pos. clear -Ho Hone. induction Ho as [|w n ws ns Hn _ IH]; intros pos; cbn [decode_works]; [eauto|].
    destruct (Hone w n pos (or_introl eq_refl) Hn (or_introl eq_refl)) as [q ->].
    destruct (IH (fun w' n' pos' A B C => Hone w' n' pos' (or_intror A) B (or_intror C)) (S pos)) as [l ->]. eauto. }
  destruct Hdec as [works Hw]. unfold parallel_decode. rewrite Hbcs, Hw.
  destruct (decode_works_spec _ _ _ _ _ _ _ _ _ Hw) as (W1 & W2 & W3).
  assert (Hnodes : map pw_node works = heads).
  { clear -Ho W1. revert works W1. induction Ho as [|w n ws ns Hn _ IH]; intros works W1; inversion W1; subst; [reflexivity|]. simpl. f_equal; [congruence|auto]. }
  destruct HL as [HL0 HL].
  set (Wt := zsum (map (weight g D Lg) works)).
  assert (HWt : Wt <= Z.of_nat (length (concat chains)) * (D + 2 * Lg + 1)).
  { unfold Wt. rewrite <- Hnodes in Hc. clear -Hc HD0 HL0. revert chains Hc. induction works as [|q works IH]; intros chains Hc; cbn [map chains_of] in *.
    - injection Hc as <-. simpl. unfold zsum. simpl. lia.
    - destruct (chain_of g (pw_node q)) as [c|] eqn:Ec; [|discriminate]. destruct (chains_of g (map pw_node works)) as [r|]; [|discriminate].
      injection Hc as <-. specialize (IH r eq_refl). cbn [concat]. rewrite app_length, Nat2Z.inj_add.
      change (zsum (weight g D Lg q :: map (weight g D Lg) works)) with (weight g D Lg q + zsum (map (weight g D Lg) works)).
      assert (Ew : weight g D Lg q = Lg + 1 + Z.of_nat (length c) * (D + Lg)) by (unfold weight, clen; rewrite Ec; reflexivity).
      assert (1 <= Z.of_nat (length c)) by (destruct (chain_head _ _ _ Ec) as [x ->]; simpl; lia). nia. }
  assert (HW0 : 0 <= Wt).
  { unfold Wt. apply zsum_nonneg. apply Forall_forall. intros x Hx. apply in_map_iff in Hx as (q & <- & _).
    unfold weight, clen. destruct (chain_of g (pw_node q)); nia. }
  assert (Hlw : length works = length heads) by (rewrite <- Hnodes, map_length; reflexivity).
  assert (HTop : (Z.to_nat (apt + Wt + Lg + 1) <= Z.to_nat (apt + (Z.of_nat (length (concat chains)) + 1) * (D + 2 * Lg + 1)))%nat) by nia.
  assert (X : exists s, forall fuel, ((length works * (1 + 2 * length works + 1) + (1 + 2 * length works)) * (Z.to_nat (apt + Wt + Lg + 1) + 1) +
      Z.to_nat (apt + Wt + Lg + 1) + 1 <= fuel)%nat ->
      parallel_loop g est ch apt (length (ch_order ch)) fuel 0 (tsub apt 1) (tsub (tsub apt 1) 1) works (PS [] (jit_init (pool_of bcs)) [0]) = Finished [] s);
    [|destruct X as [s X]; exists s; intros fuel Hfu; apply X; eapply Nat.le_trans; [|exact Hfu]; unfold parallel_iterations; rewrite <- Hlw; nia].
  eapply (loop_ends g est names cs nodes ch apt bcs (length (ch_order ch)) chains D Lg (apt + Wt)); try eassumption; try reflexivity.
  { rewrite Hnodes. exact Hc. }
  { nia. }
  { simpl. lia. }
  { assert (A := set_time_range (apt - 1)). unfold limit. fold Wt. inf. unfold tsub. destruct (set_time_cases (apt - 1)) as [[E1 R]|[[R1 R2]|[R1 R2]]]; nia. }
  split; [|simpl; lia].
  assert (Hlimit : limit g D Lg (apt + Wt) works = apt) by (unfold limit; fold Wt; lia).
  split; [|split; [|split; [|split; [|split; [|split; [|split]]]]]].
  - destruct (jit_init_inv _ (pool_of_ok bcs (bordered_ok names ch cs Hcs Hch bcs Hbcs))) as [I1 I2].
    exists [], chains, []. simpl. split.
    { constructor; simpl; [reflexivity|exact I1|exact I2|apply jit_init_times; inf; lia| | | | |]; try (intros; contradiction).
      - intros a t. cbn. lia.
      - intros l1 v w l2 E. destruct l1; discriminate. }
    split; [intros l1 hd r l2 E; destruct l1; discriminate|]. split; [intros n w []|].
    split; [rewrite Hnodes; exact Hc|]. split; [apply Permutation_refl|]. split; [exact W2|]. constructor; [inf; lia|constructor].
  - destruct works as [|q works]; [left; intros q []|]. right. exists q, works. split; [reflexivity|]. split; [|split; [|auto]].
    + destruct (length (ch_order ch)); [discriminate|]. cbn [map seq] in W3. injection W3 as _ W3.
      intros x Hx E. assert (Hp : In (pw_pos x) (map pw_pos works)) by (apply in_map; exact Hx). rewrite W3 in Hp. apply in_seq in Hp. lia.
    + rewrite <- Hnodes in Hc. cbn [map chains_of] in Hc. intros Hi c n x Ec Hn Hx. rewrite Ec in Hc.
      destruct (chains_of g (map pw_node works)) as [r0|]; [|discriminate]. injection Hc as <-.
      unfold parents in Hx. apply in_map_iff in Hx as (e & <- & He). apply filter_In in He as [He Hd]. unfold edges_to in He. apply filter_In in He as [He Hto].
      apply Nat.eqb_eq in Hto. cbn [concat] in Hclosed, Hnd. rewrite <- Hto in Hn.
      assert (Hb := Hclosed e He Hd (in_or_app _ _ _ (or_introl Hn))). apply comes_before_prefix in Hb; auto.
      destruct Hb as (a & b & d & E). rewrite E. apply in_or_app. right. left. reflexivity.
  - apply subseq_refl.
  - intros q Hq. apply Hpar. rewrite <- Hnodes. apply in_map. exact Hq.
  - lia.
  - rewrite Hlimit. split; [intros n w []|]. split; [apply jit_init_times; lia|]. intros x [<-|[]]. lia.
  - rewrite Hlimit. inf. unfold tsub. destruct (set_time_cases (apt - 1)) as [[E1 R]|[[R1 R2]|[R1 R2]]]; lia.
  - simpl. lia.
Qed.
Print Assumptions parallel_decoding_ends_within.

(** C59. The rows are valid in the sense that the genetic operators keep (C28); borders of
    kinds that a contractor does not have are zero; the order is topological and contains
    the predecessors of its works; numbers and times of the specifications are within the
    rows and the bound [D]. *)
Theorem parallel_decoding_ends :
  forall g est names cs nodes ch apt lows ups avail heads chains D Lg,
    contractors_ok cs -> estimator_ok est -> NoDup names -> chromosome_ok ch ->
    (forall n, 0 <= u_volume (g_unit g n)) -> 0 <= apt <= TIME_INF ->
    rows_valid lows ups avail (ch_borders ch) (ch_rows ch) ->
    shaped (length names) (ch_borders ch) -> length (ch_borders ch) = length cs ->
    (forall c k n, In c cs -> In (k, n) (ct_workers c) -> In k names) ->
    (forall ci c k b, nth_error cs ci = Some c -> border_for names (ch_borders ch) ci k b ->
       ~ In k (map fst (ct_workers c)) -> b = 0) ->
    Forall2 (fun w n => nth_error nodes w = Some n) (ch_order ch) heads ->
    (forall w, In w (ch_order ch) -> (w < length (ch_rows ch))%nat) ->
    (forall n, length (sp_workers (ch_spec ch n)) = length (u_reqs (g_unit g n)) ->
       forall r, In r (u_reqs (g_unit g n)) -> In (r_kind r) (map fst (sp_workers (ch_spec ch n)))) ->
    (forall n amounts ci k a m, gene nodes ch n amounts ci -> row_amount names amounts k a -> 0 < a ->
       spec_count (ch_spec ch n) (u_reqs (g_unit g n)) k m -> m <= a) ->
    chains_of g heads = Some chains -> NoDup (concat chains) ->
    (forall e, In e (g_edges g) -> is_dependency (e_type e) = true -> In (e_to e) (concat chains) ->
       comes_before (concat chains) (e_from e) (e_to e)) ->
    single_inseparable_parent g -> inseparable_lags_ok g -> (forall n, In n heads -> inseparable_parent g n = None) ->
    0 <= D -> (forall n c m tm, chain_of g n = Some c -> In m c -> row_team names cs nodes ch n tm -> est m tm <= D) ->
    (forall n t, sp_time (ch_spec ch n) = Some t -> t <= D) ->
    (0 <= Lg /\ forall e, In e (g_edges g) -> e_lag e <= Lg) ->
    apt + (Z.of_nat (length (concat chains)) + 1) * (D + 2 * Lg + 1) < TIME_INF ->
    exists enough s, forall fuel, (enough <= fuel)%nat -> parallel_decode g est names cs nodes ch apt fuel = Finished [] s.
Proof.
  intros. destruct (parallel_decoding_ends_within g est names cs nodes ch apt lows ups avail heads chains D Lg) as [s Hs]; try assumption. eexists _, s. exact Hs.
Qed.
Print Assumptions parallel_decoding_ends.


(** A concrete case: the chromosome of [SgsTheorems]. *)
Example sg_parallel_decoded :
  match parallel_decode sx_graph sx_est sg_names sx_contractors sg_nodes sg_ch 0 100 with
  | Finished r s => (length r, map (fun x => (fst x, sw_start (snd x), sw_finish (snd x), sw_contractor (snd x),
                                   map w_count (sw_team (snd x)))) (rev (ps_sched s)))
  | _ => (9%nat, [])
  end
  = (0%nat, [(0%nat, 0, 0, 0%nat, []); (1%nat, 0, 11, 1%nat, [1; 1]);
             (2%nat, 11, 23, 1%nat, [1; 1]); (3%nat, 23, 31, 0%nat, [2]);
             (4%nat, 32, 41, 1%nat, [2; 1]); (5%nat, 41, 41, 0%nat, [])]).
Proof. vm_compute. reflexivity. Qed.
(** The hypotheses of the two theorems that [sx_hypotheses] and [sg_hypotheses] do not show. *)
Example sg_parallel_hypotheses :
  (forall n amounts ci k a b, gene sg_nodes sg_ch n amounts ci -> row_amount sg_names amounts k a ->
     border_for sg_names (ch_borders sg_ch) ci k b -> a <= b) /\
  (forall n amounts ci k a m, gene sg_nodes sg_ch n amounts ci -> row_amount sg_names amounts k a -> 0 < a ->
     spec_count (ch_spec sg_ch n) (u_reqs (g_unit sx_graph n)) k m -> m <= a) /\
  (forall ci c k b, nth_error sx_contractors ci = Some c -> border_for sg_names (ch_borders sg_ch) ci k b ->
     ~ In k (map fst (ct_workers c)) -> b = 0) /\
  (forall n, length (sp_workers (ch_spec sg_ch n)) = length (u_reqs (g_unit sx_graph n)) ->
     forall r, In r (u_reqs (g_unit sx_graph n)) -> In (r_kind r) (map fst (sp_workers (ch_spec sg_ch n)))) /\
  chains_of sx_graph sx_nodes = Some sx_chains /\
  (forall e, In e (g_edges sx_graph) -> comes_before (concat sx_chains) (e_from e) (e_to e)) /\
  single_inseparable_parent sx_graph /\ inseparable_lags_ok sx_graph /\
  (forall n, In n sx_nodes -> inseparable_parent sx_graph n = None) /\
  (forall n tm, sx_est n tm <= 15) /\ (forall e, In e (g_edges sx_graph) -> e_lag e <= 2) /\
  0 + (Z.of_nat (length (concat sx_chains)) + 1) * (15 + 2 * 2 + 1) < TIME_INF.
Proof.
  split; [|split; [|split; [|split; [|split; [|split; [|split; [|split; [|split; [|split; [|split]]]]]]]]]].
  - intros n amounts ci k a b (i & _ & Hr) (j & J1 & J2) (row & j' & B1 & B2 & B3).
    destruct i as [|[|[|[|[|i]]]]]; simpl in Hr; try (destruct i; discriminate); injection Hr as <- <-;
    destruct j as [|[|j]]; simpl in J1, J2; try (destruct j; discriminate); injection J1 as <-; injection J2 as <-;
         destruct j' as [|[|j']]; simpl in B2; try discriminate; try (destruct j'; discriminate);
         simpl in B1; injection B1 as <-; simpl in B3; injection B3 as <-; lia.
  - intros n amounts ci k a m _ _ _ [H _]. simpl in H. unfold sx_spec in H. destruct (Nat.eqb n 4); destruct H.
  - intros [|[|ci]] c k b Hc (row & j & _ & B2 & _) Hni; simpl in Hc; try (destruct ci; discriminate); injection Hc as <-;
      exfalso; apply Hni; destruct j as [|[|j]]; simpl in B2; try (destruct j; discriminate); injection B2 as <-; simpl; tauto.
  - intros n H. simpl in *. unfold sx_spec in *. intros r Hr. destruct n as [|[|[|[|[|n]]]]]; simpl in *; try discriminate; tauto.
  - reflexivity.
  - intros e H. simpl in H. repeat destruct H as [<-|H]; try contradiction; simpl; before.
  - intros e1 e2 H1 H2 T1 T2 E. simpl in H1, H2. repeat destruct H1 as [<-|H1]; try contradiction; try discriminate;
      repeat destruct H2 as [<-|H2]; try contradiction; try discriminate; reflexivity.
  - intros e H. simpl in H. repeat destruct H as [<-|H]; try contradiction; simpl; intros; lia.
  - intros n H. simpl in H. repeat destruct H as [<-|H]; try contradiction; reflexivity.
  - intros n [|w tm]; unfold sx_est; [lia|]. destruct (w_count w <? 2); lia.
  - intros e H. simpl in H. repeat destruct H as [<-|H]; try contradiction; simpl; lia.
  - vm_compute. reflexivity.
Qed.

(** Finding: numbers of workers named by the specification replace those of the rows after
    the test that the workers are free, so they can overbook a contractor. *)
Theorem parallel_specified_counts_overbook :
  exists g est names cs nodes ch s,
    contractors_ok cs /\ chromosome_ok ch /\
    (forall amounts ci a, In (amounts, ci) (ch_rows ch) -> In a amounts -> a <= 3) /\ ch_borders ch = [[3]] /\
    parallel_decode g est names cs nodes ch 0 100 = Finished [] s /\
    exists c k n t, In c cs /\ In (k, n) (ct_workers c) /\ n < busy (schedule_bookings (ps_sched s)) (ct_id c, k) t.
Proof.
  exists (Gr [] (fun _ => WU false [Req 0 1 1 9] 1)), (fun _ _ => 4), [0%nat], [Ct 0 [(0%nat, 3)]], [0; 1]%nat,
    (Chr [0; 1]%nat [([1], 0%nat); ([1], 0%nat)] [[3]] (fun _ => WSpec [] [(0%nat, 2)] None false)).
  eexists. split; [|split; [|split; [|split; [reflexivity|split; [vm_compute; reflexivity|]]]]].
  - split; [repeat constructor; simpl; intuition lia|]. intros c [<-|[]]; simpl; (split; [repeat constructor; simpl; intuition lia|]).
    intros k n [[= <- <-]|[]]. lia.
  - split; [|split].
    + intros am ci a [[= <- <-]|[[= <- <-]|[]]] [<-|[]]; lia.
    + intros row b [<-|[]] [<-|[]]. lia.
    + intros n. split; [split; simpl; [|exact I]|repeat constructor; simpl; tauto]. intros k m [[= <- <-]|[]]. lia.
  - intros am ci a [[= <- <-]|[[= <- <-]|[]]] [<-|[]]; lia.
  - exists (Ct 0 [(0%nat, 3)]), 0%nat, 3, 0. simpl. split; [tauto|]. split; [tauto|]. vm_compute. reflexivity.
Qed.
Print Assumptions parallel_specified_counts_overbook.

(** Finding: a row above the border is accepted by the release-time timeline. *)
Theorem parallel_rows_above_borders_overbook :
  exists g est names cs nodes ch s,
    contractors_ok cs /\ chromosome_ok ch /\ (forall n, ch_spec ch n = WSpec [] [] None false) /\
    parallel_decode g est names cs nodes ch 0 100 = Finished [] s /\
    exists c k n t, In c cs /\ In (k, n) (ct_workers c) /\ n < busy (schedule_bookings (ps_sched s)) (ct_id c, k) t.
Proof.
  exists (Gr [] (fun _ => WU false [Req 0 1 1 9] 1)), (fun _ _ => 4), [0%nat], [Ct 0 [(0%nat, 2)]], [0; 1]%nat,
    (Chr [0; 1]%nat [([2], 0%nat); ([3], 0%nat)] [[2]] (fun _ => WSpec [] [] None false)).
  eexists. split; [|split; [|split; [reflexivity|split; [vm_compute; reflexivity|]]]].
  - split; [repeat constructor; simpl; intuition lia|]. intros c [<-|[]]; simpl; (split; [repeat constructor; simpl; intuition lia|]).
    intros k n [[= <- <-]|[]]. lia.
  - split; [|split].
    + intros am ci a [[= <- <-]|[[= <- <-]|[]]] [<-|[]]; lia.
    + intros row b [<-|[]] [<-|[]]. lia.
    + intros n. split; [split; simpl; [tauto|exact I]|constructor].
  - exists (Ct 0 [(0%nat, 2)]), 0%nat, 2, 4. simpl. split; [tauto|]. split; [tauto|]. vm_compute. reflexivity.
Qed.
Print Assumptions parallel_rows_above_borders_overbook.

(** Finding: an independent work does not wait for predecessors that are not placed yet. *)
Theorem parallel_independent_work_overtakes :
  exists g est names cs nodes ch s e wu wv,
    contractors_ok cs /\ chromosome_ok ch /\ rows_valid (fun _ => [0; 0]) (fun _ => [1; 1]) (fun _ => [0%nat]) (ch_borders ch) (ch_rows ch) /\
    (forall n, sp_workers (ch_spec ch n) = [] /\ sp_time (ch_spec ch n) = None) /\
    parallel_decode g est names cs nodes ch 0 100 = Finished [] s /\
    In e (g_edges g) /\ e_type e = FS /\ In (e_from e, wu) (ps_sched s) /\ In (e_to e, wv) (ps_sched s) /\
    sw_finish wv <= sw_start wu /\ 0 < sw_finish wv.
Proof.
  exists (Gr [Ed 1 2 0 FS] (fun _ => WU false [Req 0 1 1 9] 1)), (fun _ _ => 4), [0; 1]%nat, [Ct 0 [(0%nat, 1); (1%nat, 1)]], [0; 1; 2]%nat,
    (Chr [0; 1; 2]%nat [([1; 0], 0%nat); ([1; 0], 0%nat); ([0; 1], 0%nat)] [[1; 1]] (fun n => WSpec [] [] None (Nat.eqb n 2))).
  eexists. exists (Ed 1 2 0 FS), (SW 4 8 [Wk 0 0 1] 0), (SW 0 4 [Wk 0 1 1] 0).
  split; [|split; [|split; [|split; [split; reflexivity|split; [vm_compute; reflexivity|]]]]].
  - split; [repeat constructor; simpl; intuition lia|]. intros c [<-|[]]; simpl; (split; [repeat constructor; simpl; intuition lia|]).
    intros k n [[= <- <-]|[[= <- <-]|[]]]; lia.
  - split; [|split].
    + intros am ci a H Ha. simpl in H. repeat destruct H as [[= <- <-]|H]; try tauto; simpl in Ha; repeat destruct Ha as [<-|Ha]; try tauto; lia.
    + intros row b [<-|[]] [<-|[<-|[]]]; lia.
    + intros n. split; [split; simpl; [tauto|exact I]|constructor].
  - intros w r H. do 3 (destruct w as [|w]; [simpl in H; injection H as <-; unfold row_valid, within; simpl; repeat split; try lia; try tauto; repeat constructor; lia|]).
    simpl in H. destruct w; discriminate.
  - simpl. split; [tauto|]. split; [reflexivity|]. split; [tauto|]. split; [tauto|]. lia.
Qed.
Print Assumptions parallel_independent_work_overtakes.
