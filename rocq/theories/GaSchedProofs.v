(** Proofs about the genetic scheduler: its data structures and operators. *)
From Coq Require Import ZArith List Bool Lia Arith Relations Permutation ZifyBool ZifyNat.
From Verif Require Import TimeModel MomentumModel JITModel MomentumSpec GraphModel ScheduleModel ScheduleSpec TeamProofs ScheduleInv Digraph TopoModel TopoProofs
  HeadModel HeadProofs HeadTheorems GeneticModel GeneticProofs GeneticTheorems GeneticResModel GeneticResTheorems PipelineTheorems
  SgsModel SgsSpec SgsSerial SgsRound GaModel GaProofs GaSchedModel GaSchedSpec.
Import ListNotations.
Local Open Scope Z_scope.

Lemma nth_lt {A} (l : list A) i x : nth_error l i = Some x -> (i < length l)%nat.
Proof. intros H. apply nth_error_Some. congruence. Qed.

(** ** Names *)
Lemma add_name_spec names k : NoDup names -> NoDup (add_name names k) /\ forall x, In x (add_name names k) <-> In x names \/ x = k.
Proof.
  intros H. unfold add_name. destruct (existsb (Nat.eqb k) names) eqn:E.
  - apply existsb_exists in E as (y & Hy & E). apply Nat.eqb_eq in E. subst y. split; [exact H|]. intros x. split; [auto|]. intros [H0| ->]; assumption.
  - assert (Hn : ~ In k names).
    { intros Hk. assert (existsb (Nat.eqb k) names = true) by (apply existsb_exists; exists k; split; [exact Hk|apply Nat.eqb_refl]). congruence. }
    split; [apply nodup_app_i; [exact H|repeat constructor; intros []|intros x Hx [<-|[]]; contradiction]|].
    intros x. rewrite in_app_iff. simpl. intuition.
Qed.
Lemma add_names_spec l : forall names, NoDup names -> NoDup (fold_left add_name l names) /\ forall x, In x (fold_left add_name l names) <-> In x names \/ In x l.
Proof.
  induction l as [|k l IH]; intros names H; simpl; [split; [exact H|tauto]|].
  destruct (add_name_spec names k H) as [H1 H2]. destruct (IH _ H1) as [I1 I2]. split; [exact I1|].
  intros x. rewrite I2, H2. intuition.
Qed.
Lemma names_nodup cs : NoDup (worker_names cs).
Proof. apply add_names_spec. constructor. Qed.
Lemma names_in cs k : In k (worker_names cs) <-> exists c, In c cs /\ In k (map fst (ct_workers c)).
Proof.
  unfold worker_names. rewrite (proj2 (add_names_spec _ [] (NoDup_nil _)) k). rewrite in_concat. split.
  - intros [[]|(l & Hl & Hk)]. apply in_map_iff in Hl as (c & <- & Hc). eauto.
  - intros (c & Hc & Hk). right. exists (map fst (ct_workers c)). split; [apply in_map_iff; eauto|exact Hk].
Qed.

(** ** Borders of contractors *)
Lemma borders_forall2 cs cb : contractor_borders cs = Some cb ->
  Forall2 (fun c row => (length (ct_workers c) <= length (worker_names cs))%nat /\
                        row = map snd (ct_workers c) ++ repeat 0 (length (worker_names cs) - length (ct_workers c))) cs cb.
Proof.
  unfold contractor_borders. cbv zeta. intros H. apply map_opt_forall2 in H. revert H. generalize (length (worker_names cs)) as width. intros width H.
  induction H as [|c row l l' Hc _ IH]; constructor; [|exact IH].
  destruct (Nat.leb _ _) eqn:E; [|discriminate]. injection Hc as <-. apply Nat.leb_le in E. auto.
Qed.
Lemma borders_shaped cs cb : contractor_borders cs = Some cb -> shaped (length (worker_names cs)) cb /\ length cb = length cs.
Proof.
  intros H. apply borders_forall2 in H. split; [|symmetry; apply (forall2_length _ _ _ H)].
  intros b Hb. apply In_nth_error in Hb as [i Hi]. destruct (forall2_nth _ _ _ H i b Hi) as (c & _ & Hl & ->).
  rewrite app_length, map_length, repeat_length. lia.
Qed.
Lemma forall2_nth_l {A B} (P : A -> B -> Prop) l1 l2 : Forall2 P l1 l2 -> forall i x, nth_error l1 i = Some x -> exists y, nth_error l2 i = Some y /\ P x y.
Proof. induction 1; intros [|i] z Hz; simpl in *; try discriminate; [injection Hz as <-; eauto|auto]. Qed.
(** the cell of a profession is the number of workers, or zero *)
Lemma borders_cells cs cb ci c row j k b : contractor_borders cs = Some cb -> same_profession_order cs ->
  nth_error cs ci = Some c -> nth_error cb ci = Some row -> nth_error (worker_names cs) j = Some k -> nth_error row j = Some b ->
  In (k, b) (ct_workers c) \/ (b = 0 /\ ~ In k (map fst (ct_workers c))).
Proof.
  intros H Hso Hc Hr Hj Hb. apply borders_forall2 in H. destruct (forall2_nth_l _ _ _ H ci c Hc) as (row' & Hr' & _ & E).
  rewrite Hr in Hr'. injection Hr' as <-. subst row. destruct (Hso c (nth_error_In _ _ Hc)) as (later & E).
  assert (Hnd := names_nodup cs). rewrite E in Hj, Hnd. destruct (Nat.lt_ge_cases j (length (ct_workers c))) as [L|L].
  - left. rewrite nth_error_app1 in Hj, Hb by (rewrite map_length; exact L). rewrite nth_error_map in Hj, Hb.
    destruct (nth_error (ct_workers c) j) as [[k' b']|] eqn:Ew; simpl in *; [|discriminate]. injection Hj as ->. injection Hb as ->.
    eapply nth_error_In. exact Ew.
  - right. rewrite nth_error_app2 in Hj, Hb by (rewrite map_length; exact L). split.
    + apply nth_error_In in Hb. apply repeat_spec in Hb. exact Hb.
    + intros Hk. apply nth_error_In in Hj. eapply nodup_app_disj; [exact Hnd|exact Hk|exact Hj].
Qed.
Lemma borders_placed cs cb : contractors_ok cs -> contractor_borders cs = Some cb -> same_profession_order cs ->
  forall ci c k n, nth_error cs ci = Some c -> In (k, n) (ct_workers c) -> border_for (worker_names cs) cb ci k n.
Proof.
  intros Hcs H Hso ci c k n Hc Hin. assert (H' := borders_forall2 cs cb H). destruct (forall2_nth_l _ _ _ H' ci c Hc) as (row & Hr & Hl & E).
  destruct (Hso c (nth_error_In _ _ Hc)) as (later & En). apply In_nth_error in Hin as [j Hj].
  assert (L : (j < length (ct_workers c))%nat) by (apply nth_error_Some; congruence).
  exists row, j. split; [exact Hr|]. split.
  - rewrite En, nth_error_app1 by (rewrite map_length; exact L). rewrite nth_error_map, Hj. reflexivity.
  - subst row. rewrite nth_error_app1 by (rewrite map_length; exact L). rewrite nth_error_map, Hj. reflexivity.
Qed.
Lemma borders_nonneg cs cb : contractors_ok cs -> contractor_borders cs = Some cb -> forall row b, In row cb -> In b row -> 0 <= b.
Proof.
  intros Hcs H row b Hr Hb. apply borders_forall2 in H. apply In_nth_error in Hr as [i Hi]. destruct (forall2_nth _ _ _ H i row Hi) as (c & Hc & _ & ->).
  apply in_app_or in Hb as [Hb|Hb]; [|apply repeat_spec in Hb; lia]. apply in_map_iff in Hb as ([k n] & <- & Hb).
  apply nth_error_In in Hc. destruct Hcs as [_ Hcs]. destruct (Hcs c Hc) as [_ Hn]. apply (Hn k n Hb).
Qed.

(** ** Limits of works *)
Lemma req_value_spec f reqs k : NoDup (map r_kind reqs) ->
  (forall r, In r reqs -> r_kind r = k -> req_value f reqs k = f r) /\ (~ In k (map r_kind reqs) -> req_value f reqs k = 0).
Proof.
  unfold req_value.
  assert (G : forall reqs v, ~ In k (map r_kind reqs) -> fold_left (fun v r => if Nat.eqb (r_kind r) k then f r else v) reqs v = v).
  { induction reqs0 as [|r l IH]; intros v H; simpl in *; [reflexivity|]. destruct (Nat.eqb (r_kind r) k) eqn:E; [apply Nat.eqb_eq in E; tauto|]. apply IH. tauto. }
  intros Hnd. split; [|apply G].
  assert (F : forall reqs v, NoDup (map r_kind reqs) -> forall r, In r reqs -> r_kind r = k -> fold_left (fun v r => if Nat.eqb (r_kind r) k then f r else v) reqs v = f r).
  { induction reqs0 as [|r0 l IH]; intros v H r Hr Hk; [destruct Hr|]. simpl in *. inversion H; subst. destruct Hr as [<-|Hr].
    - rewrite Nat.eqb_refl. apply G. assumption.
    - destruct (Nat.eqb (r_kind r0) (r_kind r)) eqn:E; [|apply IH; auto]. apply Nat.eqb_eq in E. exfalso. apply H2. rewrite E. apply in_map. exact Hr. }
  intros r Hr Hk. apply F; assumption.
Qed.

(** ** The data structures *)
Record tb_ok (g : graph) (works : list nat) (cs : list contractor) (spec : nat -> work_spec) (prio : nat -> Z) (tb : toolbox) : Prop := {
  to_names : tb_names tb = worker_names cs;
  to_nodup : NoDup (tb_nodes tb);
  to_heads : forall h, In h (tb_nodes tb) <-> is_head g works h;
  to_parents : forall w n p, nth_error (tb_nodes tb) w = Some n ->
    (In p (tb_parents tb w) <-> exists m, nth_error (tb_nodes tb) p = Some m /\ prerequisite g m n);
  to_children : forall w n p, nth_error (tb_nodes tb) w = Some n ->
    (In p (tb_children tb w) <-> exists m, nth_error (tb_nodes tb) p = Some m /\ prerequisite g n m);
  to_prio : forall w n, nth_error (tb_nodes tb) w = Some n -> tb_prio tb w = prio n;
  to_lows : forall w n, nth_error (tb_nodes tb) w = Some n -> tb_lows tb w = map (req_value r_min (u_reqs (g_unit g n))) (worker_names cs);
  to_ups : forall w n, nth_error (tb_nodes tb) w = Some n -> tb_ups tb w = map (req_value r_max (u_reqs (g_unit g n))) (worker_names cs);
  to_avail : forall w n ci, nth_error (tb_nodes tb) w = Some n ->
    (In ci (tb_avail tb w) <-> exists c, nth_error cs ci = Some c /\ (sp_contractors (spec n) = [] \/ In (ct_id c) (sp_contractors (spec n))));
  to_avail_bound : forall w ci, In ci (tb_avail tb w) -> (ci < length cs)%nat;
  to_cborders : contractor_borders cs = Some (tb_cborders tb);
  to_kinds : forall n r, In n (tb_nodes tb) -> In r (u_reqs (g_unit g n)) -> In (r_kind r) (worker_names cs);
  to_ids : forall n id, In n (tb_nodes tb) -> In id (sp_contractors (spec n)) -> In id (map ct_id cs);
  to_topo : topological (prerequisite g) (tb_nodes tb) }.

Lemma by_index_in nodes d w n p : NoDup nodes -> nth_error nodes w = Some n ->
  (In p (by_index nodes d w) <-> exists m, nth_error nodes p = Some m /\ In m (ids_of d n)).
Proof.
  intros Hnd Hn. unfold by_index. rewrite Hn. rewrite in_concat. split.
  - intros (l & Hl & Hp). apply in_map_iff in Hl as (m & <- & Hm). destruct (index_of nodes m) as [i|] eqn:E; [|destruct Hp].
    destruct Hp as [<-|[]]. exists m. split; [apply index_of_nth; exact E|exact Hm].
  - intros (m & Hp & Hm). exists [p]. split; [|left; reflexivity]. apply in_map_iff. exists m. split; [|exact Hm].
    rewrite (nth_index_of _ _ _ Hnd Hp). reflexivity.
Qed.
Lemma mem_spec x l : mem x l = true <-> In x l.
Proof. apply mem_in. Qed.
Lemma prepare_ok g works cs spec prio tb : graph_ok g works -> prepare g works cs spec prio = Some tb -> tb_ok g works cs spec prio tb.
Proof.
  intros Hg H. unfold prepare in H. destruct (contractor_borders cs) as [cb|] eqn:Ecb; [|discriminate].
  destruct (head_nodes_correct g works (gk_nodup _ _ Hg) (gk_closed _ _ Hg) (graph_chains g works Hg)) as (_ & [R|(E & _)]); [|rewrite E in H; discriminate].
  destruct R as (order & ps & chs & E & H1 & H2 & H3 & H4 & H5 & _). rewrite E in H.
  destruct (forallb _ order) eqn:Ef; [|discriminate]. injection H as <-. rewrite forallb_forall in Ef.
  assert (Hav : forall ci c, nth_error cs ci = Some c -> nth ci (map ct_id cs) 0%nat = ct_id c).
  { intros ci c Hc. apply nth_error_nth. rewrite nth_error_map, Hc. reflexivity. }
  constructor; cbn [tb_names tb_nodes tb_parents tb_children tb_prio tb_lows tb_ups tb_avail tb_cborders]; auto.
  - intros w n p Hn. rewrite (by_index_in _ _ _ n p H1 Hn). assert (Hin := nth_error_In _ _ Hn). split.
    + intros (m & Hm & Hi). exists m. split; [exact Hm|]. apply (H4 n m Hin) in Hi. tauto.
    + intros (m & Hm & Hi). exists m. split; [exact Hm|]. apply (H4 n m Hin). split; [eapply nth_error_In; eauto|exact Hi].
  - intros w n p Hn. rewrite (by_index_in _ _ _ n p H1 Hn). assert (Hin := nth_error_In _ _ Hn). split.
    + intros (m & Hm & Hi). exists m. split; [exact Hm|]. apply (H5 n m Hin) in Hi. tauto.
    + intros (m & Hm & Hi). exists m. split; [exact Hm|]. apply (H5 n m Hin). split; [eapply nth_error_In; eauto|exact Hi].
  - intros w n Hn. rewrite Hn. reflexivity.
  - intros w n Hn. unfold border_row. rewrite Hn. reflexivity.
  - intros w n Hn. unfold border_row. rewrite Hn. reflexivity.
  - intros w n ci Hn. unfold available. rewrite Hn. rewrite filter_In, in_seq. split.
    + intros [Hb Ha]. destruct (nth_error cs ci) as [c|] eqn:Ec; [|apply nth_error_None in Ec; lia]. exists c. split; [reflexivity|].
      rewrite (Hav ci c Ec) in Ha. destruct (sp_contractors (spec n)) as [|x l]; [left; reflexivity|right]. apply mem_spec. exact Ha.
    + intros (c & Ec & Ha). split; [split; [lia|simpl; apply nth_error_Some; congruence]|]. rewrite (Hav ci c Ec).
      destruct (sp_contractors (spec n)) as [|x l]; [reflexivity|]. destruct Ha as [Ha|Ha]; [discriminate|]. apply mem_spec. exact Ha.
  - intros w ci H. unfold available in H. destruct (nth_error order w); [|destruct H]. apply filter_In in H as [H _]. apply in_seq in H. lia.
  - intros n r Hn Hr. specialize (Ef n Hn). apply andb_true_iff in Ef as [Ef _]. rewrite forallb_forall in Ef. apply mem_spec. apply Ef. exact Hr.
  - intros n id Hn Hi. specialize (Ef n Hn). apply andb_true_iff in Ef as [_ Ef]. rewrite forallb_forall in Ef. apply mem_spec. apply Ef. exact Hi.
Qed.

(** ** Individuals, in terms of positions *)
Lemma forall2_by_nth {A B} (P : A -> B -> Prop) l1 : forall l2,
  Forall2 P l1 l2 <-> length l1 = length l2 /\ forall j x y, nth_error l1 j = Some x -> nth_error l2 j = Some y -> P x y.
Proof.
  induction l1 as [|a l1 IH]; intros [|b l2]; split.
  - intros _. split; [reflexivity|]. intros [|j] x y H; discriminate.
  - intros _. constructor.
  - intros H. inversion H.
  - intros [H _]. discriminate.
  - intros H. inversion H.
  - intros [H _]. discriminate.
  - intros H. inversion H; subst. apply IH in H5 as [L N]. split; [simpl; congruence|]. intros [|j] x y Hx Hy; simpl in *; [congruence|eapply N; eauto].
  - intros [L N]. constructor; [apply (N 0%nat); reflexivity|]. apply IH. split; [simpl in L; congruence|]. intros j x y Hx Hy. apply (N (S j)); assumption.
Qed.
Lemma transfer (nodes order heads : list nat) R : Forall2 (fun w n => nth_error nodes w = Some n) order heads -> NoDup heads ->
  (topological R heads <-> topological (fun x y => exists m n, nth_error nodes x = Some m /\ nth_error nodes y = Some n /\ R m n) order).
Proof.
  intros F Hnd. split.
  - intros T x y (m & n & Hx & Hy & HR) Ix Iy. apply In_nth_error in Ix as [i Hi]. apply In_nth_error in Iy as [j Hj].
    destruct (forall2_nth_l _ _ _ F i x Hi) as (m' & Hm' & E). assert (m' = m) by congruence. subst m'. clear E.
    destruct (forall2_nth_l _ _ _ F j y Hj) as (n' & Hn' & E). assert (n' = n) by congruence. subst n'. clear E.
    assert (C := T m n HR (nth_error_In _ _ Hm') (nth_error_In _ _ Hn')). apply before_nth in C as (i' & j' & L & Hi' & Hj').
    assert (i' = i) by (eapply (proj1 (NoDup_nth_error heads) Hnd); [apply nth_error_Some; congruence|congruence]).
    assert (j' = j) by (eapply (proj1 (NoDup_nth_error heads) Hnd); [apply nth_error_Some; congruence|congruence]).
    subst. apply before_nth. eauto 6.
  - intros T m n HR Im In'. apply In_nth_error in Im as [i Hi]. apply In_nth_error in In' as [j Hj].
    destruct (forall2_nth _ _ _ F i m Hi) as (x & Hx & Ex). destruct (forall2_nth _ _ _ F j n Hj) as (y & Hy & Ey).
    assert (C : comes_before order x y) by (apply T; [exists m, n; auto|eapply nth_error_In; eauto|eapply nth_error_In; eauto]).
    apply before_nth in C as (i' & j' & L & Hi' & Hj').
    destruct (forall2_nth_l _ _ _ F i' x Hi') as (m' & Hm' & E). assert (m' = m) by congruence. subst m'.
    destruct (forall2_nth_l _ _ _ F j' y Hj') as (n' & Hn' & E'). assert (n' = n) by congruence. subst n'.
    apply before_nth. eauto 6.
Qed.
Lemma order_heads (nodes order : list nat) : NoDup nodes -> Permutation order (seq 0 (length nodes)) ->
  exists heads, Forall2 (fun w n => nth_error nodes w = Some n) order heads /\ Permutation heads nodes.
Proof.
  intros Hnd HP. exists (map (fun w => nth w nodes 0%nat) order). split.
  - apply forall2_by_nth. rewrite map_length. split; [reflexivity|]. intros j x y Hx Hy. rewrite nth_error_map, Hx in Hy. injection Hy as <-.
    apply nth_error_nth'. apply nth_error_In in Hx. apply (Permutation_in _ HP) in Hx. apply in_seq in Hx. lia.
  - etransitivity; [apply Permutation_map; exact HP|]. clear. replace (map (fun w => nth w nodes 0%nat) (seq 0 (length nodes))) with nodes; [reflexivity|].
    assert (G : forall (l pre : list nat), map (fun w => nth w (pre ++ l) 0%nat) (seq (length pre) (length l)) = l).
    { induction l as [|x l IH]; intros pre; [reflexivity|]. simpl. f_equal; [rewrite app_nth2 by lia; rewrite Nat.sub_diag; reflexivity|].
      specialize (IH (pre ++ [x])). rewrite app_length in IH. simpl in IH. rewrite <- app_assoc in IH. simpl in IH.
      replace (length pre + 1)%nat with (S (length pre)) in IH by lia. exact IH. }
    symmetry. exact (G nodes []).
Qed.
Lemma heads_order (nodes order heads : list nat) : NoDup nodes -> Forall2 (fun w n => nth_error nodes w = Some n) order heads -> Permutation heads nodes ->
  Permutation order (seq 0 (length nodes)).
Proof.
  intros Hnd F HP. assert (Hh : NoDup heads) by (eapply Permutation_NoDup; [apply Permutation_sym; exact HP|exact Hnd]).
  assert (Hno : NoDup order).
  { apply NoDup_nth_error. intros i j Hi E. destruct (nth_error order i) as [x|] eqn:Ei; [|apply nth_error_None in Ei; lia].
    symmetry in E. destruct (forall2_nth_l _ _ _ F i x Ei) as (m & Hm & Em). destruct (forall2_nth_l _ _ _ F j x E) as (m' & Hm' & Em').
    apply (proj1 (NoDup_nth_error heads) Hh); [apply nth_error_Some; congruence|congruence]. }
  apply NoDup_Permutation_bis; [exact Hno| |].
  - rewrite seq_length. rewrite (forall2_length _ _ _ F). rewrite (Permutation_length HP). lia.
  - intros w Hw. apply In_nth_error in Hw as [i Hi]. destruct (forall2_nth_l _ _ _ F i w Hi) as (m & _ & Hm). apply in_seq.
    split; [lia|]. simpl. apply nth_error_Some. congruence.
Qed.

Section Valid.
  Variable g : graph.
  Variable works : list nat.
  Variable cs : list contractor.
  Variable spec : nat -> work_spec.
  Variable prio : nat -> Z.
  Variable tb : toolbox.
  Hypothesis Hg : graph_ok g works.
  Hypothesis Htb : tb_ok g works cs spec prio tb.
  Hypothesis Hcs : contractors_ok cs.
  Hypothesis Hreqs : forall n, reqs_ok (reqs_of g n).
  Let nodes := tb_nodes tb.
  Let names := worker_names cs.

  Record valid (opt : bool) (ch : chromosome) : Prop := {
    v_order : Permutation (ch_order ch) (seq 0 (length nodes));
    v_topo : topological (fun p w => exists m n, nth_error nodes p = Some m /\ nth_error nodes w = Some n /\ prerequisite g m n) (ch_order ch);
    v_prio : topological (fun x y => tb_prio tb x < tb_prio tb y) (ch_order ch);
    v_length : length (ch_rows ch) = length nodes;
    v_rows : rows_valid (tb_lows tb) (tb_ups tb) (tb_avail tb) (ch_borders ch) (ch_rows ch);
    v_borders : borders_valid (tb_cborders tb) (ch_borders ch);
    v_nonneg : forall row b, In row (ch_borders ch) -> In b row -> 0 <= b;
    v_fixed : opt = false -> ch_borders ch = tb_cborders tb;
    v_spec : forall n, ch_spec ch n = spec n }.

  Lemma cborders_shaped : shaped (length names) (tb_cborders tb) /\ length (tb_cborders tb) = length cs.
  Proof. apply borders_shaped. apply (to_cborders _ _ _ _ _ _ Htb). Qed.
  Lemma borders_ok_shaped bs : borders_valid (tb_cborders tb) bs -> shaped (length names) bs /\ length bs = length cs.
  Proof.
    intros H. destruct cborders_shaped as [S L]. split; [|rewrite <- L; apply (forall2_length _ _ _ H)].
    intros b Hb. apply In_nth_error in Hb as [i Hi]. destruct (forall2_nth_l _ _ _ H i b Hi) as (c & Hc & W).
    rewrite (within_length _ _ W). apply S. eapply nth_error_In; eauto.
  Qed.

  Lemma order_transfer (order heads : list nat) : Forall2 (fun w n => nth_error nodes w = Some n) order heads -> NoDup heads ->
    (topological (fun x y => tb_prio tb x < tb_prio tb y) order <-> topological (fun x y => prio x < prio y) heads).
  Proof.
    intros F Hnd. rewrite (transfer nodes order heads (fun x y => prio x < prio y) F Hnd).
    assert (E : forall w, In w order -> exists n, nth_error nodes w = Some n /\ tb_prio tb w = prio n).
    { intros w Hw. apply In_nth_error in Hw as [i Hi]. destruct (forall2_nth_l _ _ _ F i w Hi) as (n & _ & Hn). exists n. split; [exact Hn|].
      apply (to_prio _ _ _ _ _ _ Htb w n Hn). }
    split; intros T x y H Hx Hy; apply T; auto.
    - destruct H as (m & n & Hm & Hn & H). destruct (E x Hx) as (m' & Em & ->). destruct (E y Hy) as (n' & En & ->). congruence.
    - destruct (E x Hx) as (m & Em & E1). destruct (E y Hy) as (n & En & E2). exists m, n. rewrite E1, E2 in H. auto.
  Qed.

  Lemma row_iff borders w n amounts ci : shaped (length names) borders -> length borders = length cs -> nth_error nodes w = Some n ->
    (row_valid (tb_lows tb) (tb_ups tb) (tb_avail tb) borders w (amounts, ci) <->
     exists c border, nth_error cs ci = Some c /\ nth_error borders ci = Some border /\
        (sp_contractors (spec n) = [] \/ In (ct_id c) (sp_contractors (spec n))) /\
        at_positions names amounts border (fun k a b => a <= b /\
          (forall r, In r (u_reqs (g_unit g n)) -> r_kind r = k -> r_min r <= a <= r_max r) /\
          (~ In k (map r_kind (u_reqs (g_unit g n))) -> a = 0))).
  Proof.
    intros Hsh Hlb Hn. unfold row_valid. cbn [fst snd]. rewrite (to_lows _ _ _ _ _ _ Htb w n Hn), (to_ups _ _ _ _ _ _ Htb w n Hn), (to_avail _ _ _ _ _ _ Htb w n ci Hn).
    destruct (Hreqs n) as [Hnd _]. unfold reqs_of in Hnd. fold names. split.
    - intros (W1 & W2 & (c & Hc & Ha) & L & W3). destruct (nth_error borders ci) as [border|] eqn:Eb; [|apply nth_error_None in Eb; lia].
      rewrite (nth_error_nth _ _ _ Eb) in W3. exists c, border. split; [exact Hc|]. split; [reflexivity|]. split; [exact Ha|].
      apply forall2_by_nth in W1 as [L1 N1]. apply forall2_by_nth in W2 as [L2 N2]. apply forall2_by_nth in W3 as [L3 N3]. rewrite map_length in L1, L2.
      split; [congruence|]. split; [congruence|]. intros j k a b Hj Hja Hjb. split; [apply (N3 j); assumption|].
      assert (N1' := N1 j (req_value r_min (u_reqs (g_unit g n)) k) a ltac:(rewrite nth_error_map, Hj; reflexivity) Hja).
      assert (N2' := N2 j a (req_value r_max (u_reqs (g_unit g n)) k) Hja ltac:(rewrite nth_error_map, Hj; reflexivity)).
      destruct (req_value_spec r_min _ k Hnd) as [M1 M2]. destruct (req_value_spec r_max _ k Hnd) as [M3 M4]. split.
      + intros r Hr Hk. rewrite (M1 r Hr Hk) in N1'. rewrite (M3 r Hr Hk) in N2'. lia.
      + intros Hk. rewrite (M2 Hk) in N1'. rewrite (M4 Hk) in N2'. lia.
    - intros (c & border & Hc & Eb & Ha & L1 & L2 & P). rewrite (nth_error_nth _ _ _ Eb).
      assert (Hval : forall j k a, nth_error names j = Some k -> nth_error amounts j = Some a ->
          req_value r_min (u_reqs (g_unit g n)) k <= a <= req_value r_max (u_reqs (g_unit g n)) k).
      { intros j k a Hj Hja. destruct (nth_error border j) as [b|] eqn:Ebj; [|apply nth_error_None in Ebj; assert (j < length amounts)%nat by (apply nth_error_Some; congruence); lia].
        destruct (P j k a b Hj Hja Ebj) as (_ & P1 & P2). destruct (req_value_spec r_min _ k Hnd) as [M1 M2]. destruct (req_value_spec r_max _ k Hnd) as [M3 M4].
        destruct (in_dec Nat.eq_dec k (map r_kind (u_reqs (g_unit g n)))) as [Hk|Hk].
        - apply in_map_iff in Hk as (r & Hk & Hr). rewrite (M1 r Hr Hk), (M3 r Hr Hk). apply P1; assumption.
        - rewrite (M2 Hk), (M4 Hk), (P2 Hk). lia. }
      split; [|split; [|split; [exists c; auto|split]]].
      + apply forall2_by_nth. rewrite map_length. split; [congruence|]. intros j x y Hx Hy. rewrite nth_error_map in Hx.
        destruct (nth_error names j) as [k|] eqn:Ej; [|discriminate]. injection Hx as <-. apply (Hval j k y Ej Hy).
      + apply forall2_by_nth. rewrite map_length. split; [congruence|]. intros j x y Hx Hy. rewrite nth_error_map in Hy.
        destruct (nth_error names j) as [k|] eqn:Ej; [|discriminate]. injection Hy as <-. apply (Hval j k x Ej Hx).
      + rewrite Hlb. apply nth_error_Some. congruence.
      + apply forall2_by_nth. split; [congruence|]. intros j x y Hx Hy.
        destruct (nth_error names j) as [k|] eqn:Ej; [|apply nth_error_None in Ej; assert (j < length amounts)%nat by (apply nth_error_Some; congruence); lia].
        apply (P j k x y Ej Hx Hy).
  Qed.

  Lemma valid_iff opt ch : individual_ok g cs spec prio nodes (tb_cborders tb) opt ch <-> valid opt ch.
  Proof.
    assert (Hndn := to_nodup _ _ _ _ _ _ Htb). fold nodes in Hndn. split.
    - intros [(heads & F & P & T1 & T2) (R1 & R2) B Fx Sp].
      assert (Hh : NoDup heads) by (eapply Permutation_NoDup; [apply Permutation_sym; exact P|exact Hndn]).
      assert (Hbv : borders_valid (tb_cborders tb) (ch_borders ch)).
      { destruct (proj1 (forall2_by_nth _ _ _) B) as [L N]. apply forall2_by_nth. split; [exact L|]. intros j x y Hx Hy. destruct (N j x y Hx Hy) as (A1 & A2 & A3).
        apply forall2_by_nth. split; [congruence|]. intros i a b Ha Hb.
        destruct (nth_error (worker_names cs) i) as [k|] eqn:Ek; [|apply nth_error_None in Ek; assert (i < length x)%nat by (apply nth_error_Some; congruence); lia].
        apply (A3 i k a b Ek Ha Hb). }
      destruct (borders_ok_shaped _ Hbv) as [Hsh Hlb].
      constructor; auto.
      + eapply heads_order; eauto.
      + apply (transfer nodes (ch_order ch) heads (prerequisite g) F Hh). exact T1.
      + apply (order_transfer _ _ F Hh). exact T2.
      + intros w [amounts ci] Hr. destruct (nth_error nodes w) as [n|] eqn:En; [|apply nth_error_None in En; assert (w < length (ch_rows ch))%nat by (exact (nth_lt _ _ _ Hr)); lia].
        apply (row_iff _ w n amounts ci Hsh Hlb En). apply R2. exists w. auto.
      + intros row b Hr Hb. apply In_nth_error in Hr as [i Hi]. destruct (forall2_nth_l _ _ _ B i row Hi) as (wf & _ & A1 & A2 & A3).
        apply In_nth_error in Hb as [j Hj]. destruct (nth_error (worker_names cs) j) as [k|] eqn:Ek; [|apply nth_error_None in Ek; assert (j < length row)%nat by (apply nth_error_Some; congruence); lia].
        destruct (nth_error wf j) as [x|] eqn:Ex; [|apply nth_error_None in Ex; assert (j < length row)%nat by (apply nth_error_Some; congruence); lia].
        apply (A3 j k b x Ek Hj Ex).
    - intros [O T1 T2 L R B N Fx Sp]. destruct (order_heads nodes (ch_order ch) Hndn O) as (heads & F & P).
      assert (Hh : NoDup heads) by (eapply Permutation_NoDup; [apply Permutation_sym; exact P|exact Hndn]).
      destruct (borders_ok_shaped _ B) as [Hsh Hlb]. destruct cborders_shaped as [Hsc _].
      constructor; auto.
      + exists heads. split; [exact F|]. split; [exact P|]. split; [apply (transfer nodes (ch_order ch) heads (prerequisite g) F Hh); exact T1|].
        apply (order_transfer _ _ F Hh). exact T2.
      + split; [exact L|]. intros n amounts ci (w & Hn & Hr). apply (row_iff _ w n amounts ci Hsh Hlb Hn). apply R. exact Hr.
      + apply forall2_by_nth. destruct (proj1 (forall2_by_nth _ _ _) B) as [Lb Nb]. split; [exact Lb|]. intros j x y Hx Hy.
        assert (W := Nb j x y Hx Hy). apply forall2_by_nth in W as [W1 W2]. split; [apply Hsh; eapply nth_error_In; eauto|].
        split; [apply Hsc; eapply nth_error_In; eauto|]. intros i k a b _ Ha Hb. split; [|apply (W2 i a b Ha Hb)].
        apply (N x a); [eapply nth_error_In; eauto|eapply nth_error_In; eauto].
  Qed.

  (** ** Operators *)
  Hypothesis Hne : nodes <> [].
  Lemma valid_nonempty opt ch : valid opt ch -> ch_order ch <> [].
  Proof.
    intros H E. assert (P := v_order _ _ H). rewrite E in P. apply Permutation_length in P. rewrite seq_length in P. destruct nodes; [congruence|discriminate].
  Qed.
  Lemma valid_nodup opt ch : valid opt ch -> NoDup (ch_order ch).
  Proof. intros H. eapply Permutation_NoDup; [apply Permutation_sym, (v_order _ _ H)|apply seq_NoDup]. Qed.
  Lemma lows_nonneg w n : nth_error nodes w = Some n -> forall a, In a (tb_lows tb w) -> 0 <= a.
  Proof.
    intros Hn a Ha. rewrite (to_lows _ _ _ _ _ _ Htb w n Hn) in Ha. apply in_map_iff in Ha as (k & <- & _).
    destruct (Hreqs n) as [Hnd Hf]. unfold reqs_of in Hnd, Hf. destruct (req_value_spec r_min _ k Hnd) as [M1 M2].
    destruct (in_dec Nat.eq_dec k (map r_kind (u_reqs (g_unit g n)))) as [Hk|Hk]; [|rewrite (M2 Hk); lia].
    apply in_map_iff in Hk as (r & Hk & Hr). rewrite (M1 r Hr Hk).
    rewrite Forall_forall in Hf. specialize (Hf r Hr). lia.
  Qed.
  Lemma within_nonneg a b : within a b -> (forall x, In x a -> 0 <= x) -> forall y, In y b -> 0 <= y.
  Proof. induction 1 as [|x y a b H _ IH]; intros Ha z Hz; [destruct Hz|]. destruct Hz as [<-|Hz]; [specialize (Ha x (or_introl eq_refl)); lia|]. apply IH; [intros; apply Ha; right; assumption|exact Hz]. Qed.
  Lemma row_nonneg borders w r : (w < length nodes)%nat -> row_valid (tb_lows tb) (tb_ups tb) (tb_avail tb) borders w r ->
    forall a, In a (fst r) -> 0 <= a.
  Proof.
    intros Hw (W & _). destruct (nth_error nodes w) as [n|] eqn:E; [|apply nth_error_None in E; lia].
    apply (within_nonneg _ _ W). apply (lows_nonneg w n E).
  Qed.

  Lemma mate_valid d j opt a b : draws_ok d -> valid opt a -> valid opt b ->
    exists c1 c2, mate tb d opt j a b = Some (c1, c2) /\ valid opt c1 /\ valid opt c2.
  Proof.
    intros (D1 & _) Va Vb. unfold mate.
    assert (Hp : Permutation (ch_order b) (ch_order a)) by (etransitivity; [apply (v_order _ _ Vb)|apply Permutation_sym, (v_order _ _ Va)]).
    destruct (order_crossover_correct (d_randint d j) (D1 j) (tb_prio tb) (ch_order a) (ch_order b) (valid_nonempty _ _ Va) (valid_nodup _ _ Va) Hp (v_prio _ _ Va) (v_prio _ _ Vb))
      as (o1 & o2 & -> & P1 & P2 & Q1 & Q2 & T). destruct (T _ (v_topo _ _ Va) (v_topo _ _ Vb)) as [T1 T2].
    destruct (mate_resources (d_swapped d j) opt (ch_rows a) (ch_borders a) (ch_rows b) (ch_borders b)) as [[r1 b1] [r2 b2]] eqn:E.
    destruct (borders_ok_shaped _ (v_borders _ _ Va)) as [Sa La]. destruct (borders_ok_shaped _ (v_borders _ _ Vb)) as [Sb Lb].
    assert (Hlen : length (ch_rows a) = length (ch_rows b)) by (rewrite (v_length _ _ Va), (v_length _ _ Vb); reflexivity).
    destruct (resource_crossover_correct (d_swapped d j) opt (tb_lows tb) (tb_ups tb) (tb_avail tb) (length names) (tb_cborders tb)
       _ _ _ _ _ _ _ _ Hlen Sa Sb ltac:(congruence) ltac:(destruct opt; [left; reflexivity|right; rewrite (v_fixed _ _ Va eq_refl), (v_fixed _ _ Vb eq_refl); reflexivity])
       (v_rows _ _ Va) (v_rows _ _ Vb) (v_borders _ _ Va) (v_borders _ _ Vb) E) as (R1 & R2 & B1 & B2 & N1 & N2).
    assert (Hl1 : length r1 = length nodes /\ length r2 = length nodes).
    { unfold mate_resources in E. destruct opt; injection E as <- _ <- _; rewrite !swap_length by (exact Hlen || exact (eq_sym Hlen)); (split; [exact (v_length _ _ Va)|exact (v_length _ _ Vb)]). }
    assert (Hnb : (forall row x, In row b1 -> In x row -> 0 <= x) /\ (forall row x, In row b2 -> In x row -> 0 <= x)).
    { unfold mate_resources in E. assert (Na := v_nonneg _ _ Va). assert (Nb := v_nonneg _ _ Vb).
      assert (Hr : forall ms own b1 b2 : list (list Z), forall mated, length b1 = length cs -> length b2 = length cs -> length own = length cs ->
         (forall row x, In row own -> In x row -> 0 <= x) -> (forall row x, In row b1 -> In x row -> 0 <= x) -> (forall row x, In row b2 -> In x row -> 0 <= x) ->
         forall row x, In row (raise_borders mated own b1 b2) -> In x row -> 0 <= x).
      { clear. intros _ own b1 b2 mated L1 L2 L3 H1 H2 H3 row x Hrow Hx. apply In_nth_error in Hrow as [c Hc].
        destruct (nth_error own c) as [b|] eqn:Eb.
        - rewrite (raise_nth mated own b1 b2 c b Eb) in Hc. injection Hc as <-. destruct (mem c mated).
          + assert (Hcl : (c < length own)%nat) by (apply nth_error_Some; congruence).
            assert (I1 : In (nth c b1 []) b1) by (apply nth_In; lia). assert (I2 : In (nth c b2 []) b2) by (apply nth_In; lia).
            assert (G1 := H2 _ x I1). assert (A1 := H2 (nth c b1 [])). assert (A2 := H3 (nth c b2 [])).
            assert (A1' := fun y => A1 y I1). assert (A2' := fun y => A2 y I2). clear -Hx A1' A2'. revert Hx A1' A2'. generalize (nth c b1 []) as u, (nth c b2 []) as v.
            induction u as [|p u IH]; intros [|q v] Hx Hu Hv; simpl in Hx; try tauto. destruct Hx as [<-|Hx]; [specialize (Hu p (or_introl eq_refl)); lia|].
            apply (IH v Hx); intros; [apply Hu|apply Hv]; right; assumption.
          + apply (H1 b x); [eapply nth_error_In; eauto|exact Hx].
        - apply nth_error_None in Eb. assert (c < length (raise_borders mated own b1 b2))%nat by (apply nth_error_Some; congruence). rewrite raise_length in H. lia. }
      destruct opt; injection E as <- <- <- <-; [|auto].
      split; [apply (Hr []); auto|]. apply (Hr []); auto; [rewrite raise_length; exact La|]. apply (Hr []); auto. }
    exists (Chr o1 r1 b1 (ch_spec a)), (Chr o2 r2 b2 (ch_spec b)). split; [reflexivity|].
    split; constructor; cbn [ch_order ch_rows ch_borders ch_spec]; try apply Hnb; try apply Hl1; auto.
    - etransitivity; [exact P1|apply (v_order _ _ Va)].
    - intros ->. unfold mate_resources in E. injection E as <- <- <- <-. apply (v_fixed _ _ Va eq_refl).
    - apply (v_spec _ _ Va).
    - etransitivity; [exact P2|apply (v_order _ _ Vb)].
    - intros ->. unfold mate_resources in E. injection E as <- <- <- <-. apply (v_fixed _ _ Vb eq_refl).
    - apply (v_spec _ _ Vb).
  Qed.

  Lemma mutate_valid d j opt ch : draws_ok d -> valid opt ch -> exists ch', mutate tb d j ch = Some ch' /\ valid opt ch'.
  Proof.
    intros (_ & _ & D3 & D4 & D5 & D6) V. unfold mutate.
    destruct (order_mutation_correct (d_order_sel d j) (d_order_shuffle d j) (d_order_pick d j) (D3 j) (D4 j) (tb_parents tb) (tb_children tb) (tb_prio tb)
      (ch_order ch) (valid_nonempty _ _ V) (valid_nodup _ _ V)) as (o & -> & P & M & T).
    destruct (borders_ok_shaped _ (v_borders _ _ V)) as [S L].
    destruct (resource_mutation_correct (d_contractor_sel d j) (d_contractor_pick d j) (d_row_sel d j) (d_row_pick d j) (tb_lows tb) (tb_ups tb) (tb_avail tb)
      (length names) (ch_borders ch) (ch_rows ch) (D5 j) (D6 j) S) as (r & -> & Lr & R).
    { intros w c H. rewrite L. apply (to_avail_bound _ _ _ _ _ _ Htb w c H). }
    { apply (v_rows _ _ V). }
    eexists. split; [reflexivity|]. constructor; cbn [ch_order ch_rows ch_borders ch_spec]; try apply V.
    - etransitivity; [exact P|apply (v_order _ _ V)].
    - apply T; [|apply (v_topo _ _ V)]. intros x y (m & n & Hm & Hn & H) _ _. split.
      + apply (to_parents _ _ _ _ _ _ Htb y n x Hn). eauto.
      + apply (to_children _ _ _ _ _ _ Htb x m y Hm). eauto.
    - (* the priorities stand at the same positions *)
      assert (Q := v_prio _ _ V). assert (Hno := valid_nodup _ _ V).
      assert (Hno' : NoDup o) by (eapply Permutation_NoDup; [apply Permutation_sym; exact P|exact Hno]).
      intros x y Hlt Hx Hy. apply In_nth_error in Hx as [i Hi]. apply In_nth_error in Hy as [k Hk].
      assert (Hmi : nth_error (map (tb_prio tb) (ch_order ch)) i = Some (tb_prio tb x)) by (rewrite <- M, nth_error_map, Hi; reflexivity).
      assert (Hmk : nth_error (map (tb_prio tb) (ch_order ch)) k = Some (tb_prio tb y)) by (rewrite <- M, nth_error_map, Hk; reflexivity).
      rewrite nth_error_map in Hmi, Hmk. destruct (nth_error (ch_order ch) i) as [x'|] eqn:Ex; [|discriminate]. destruct (nth_error (ch_order ch) k) as [y'|] eqn:Ey; [|discriminate].
      injection Hmi as Hmi. injection Hmk as Hmk. assert (C : comes_before (ch_order ch) x' y') by (apply Q; [lia|eapply nth_error_In; eauto|eapply nth_error_In; eauto]).
      apply before_nth in C as (i' & k' & Lt & Hi' & Hk').
      assert (i' = i) by (eapply (proj1 (NoDup_nth_error _) Hno); [apply nth_error_Some; congruence|congruence]).
      assert (k' = k) by (eapply (proj1 (NoDup_nth_error _) Hno); [apply nth_error_Some; congruence|congruence]).
      subst. apply before_nth. eauto 6.
    - exact (eq_trans Lr (v_length _ _ V)).
    - exact R.
  Qed.

  Lemma mutate_borders_idle sel pick cborders rows borders borders' c b :
    mutate_borders sel pick cborders rows borders = Some borders' -> nth_error borders' c = Some b -> ~ In c (contractors_in rows) -> nth_error borders c = Some b.
  Proof.
    intros H Hb Hc. unfold mutate_borders in H.
    assert (F : Forall2 (fun x y => (if mem (fst x) (contractors_in rows) then mutate_row (sel (fst x)) (pick (fst x)) 0 (snd x) (column_max (rows_of (fst x) rows)) (nth (fst x) cborders []) else Some (snd x)) = Some y) (indexed borders) borders').
    { exact (GaProofs.sequence_spec _ _ _ H). }
    destruct (forall2_nth _ _ _ F c b Hb) as ([c' b'] & Hi & E). rewrite indexed_nth in Hi. destruct (nth_error borders c) as [b0|] eqn:E0; [|discriminate].
    simpl in Hi. injection Hi as <- <-. cbn [fst snd] in E. destruct (mem c (contractors_in rows)) eqn:Em; [apply mem_in in Em; contradiction|]. congruence.
  Qed.

  Lemma mutate_one_valid d j opt ch : draws_ok d -> valid opt ch -> exists ch', mutate_one tb d opt j ch = Some ch' /\ valid opt ch'.
  Proof.
    intros D V. unfold mutate_one. destruct opt; [|apply mutate_valid; assumption].
    destruct (borders_ok_shaped _ (v_borders _ _ V)) as [S L].
    destruct (border_mutation_correct (d_border_sel d j) (d_border_pick d j) (tb_lows tb) (tb_ups tb) (tb_avail tb) (length names) (tb_cborders tb) (ch_rows ch) (ch_borders ch)
      (proj1 (proj2 D) j) S (v_borders _ _ V) (v_rows _ _ V)) as (bs & E & Lb & B & R).
    rewrite E. apply mutate_valid; [exact D|]. constructor; cbn [ch_order ch_rows ch_borders ch_spec]; try apply V; auto; [|discriminate].
    intros row b Hr Hb. apply In_nth_error in Hr as [c Hc]. destruct (in_dec Nat.eq_dec c (contractors_in (ch_rows ch))) as [Hi|Hi].
    - apply contractors_in_spec in Hi as (a & Ha). apply In_nth_error in Ha as [w Hw]. assert (Rw := R w _ Hw).
      assert (Hlt : (w < length nodes)%nat) by (rewrite <- (v_length _ _ V); exact (nth_lt _ _ _ Hw)).
      assert (Hn := row_nonneg _ _ _ Hlt Rw). destruct Rw as (_ & _ & _ & _ & W). cbn [fst snd] in *. rewrite (nth_error_nth _ _ _ Hc) in W.
      apply (within_nonneg _ _ W Hn b Hb).
    - assert (Hb0 := mutate_borders_idle _ _ _ _ _ _ _ _ E Hc Hi). apply (v_nonneg _ _ V row b); [eapply nth_error_In; eauto|exact Hb].
  Qed.

  Lemma mate_pairs_valid d opt : draws_ok d -> forall n pop j, (length pop <= n)%nat -> Forall (valid opt) pop ->
    exists l, mate_pairs tb d opt j pop = Some l /\ Forall (valid opt) l /\ length l = (2 * (length pop / 2))%nat.
  Proof.
    intros D. induction n as [|n IH]; intros pop j Hn Hp.
    { destruct pop; [|simpl in Hn; lia]. exists []. split; [reflexivity|]. split; [constructor|reflexivity]. }
    destruct pop as [|a [|b rest]]; [exists []; repeat split; constructor|exists []; repeat split; constructor|].
    inversion Hp as [|? ? Va Hp1]; subst. inversion Hp1 as [|? ? Vb Hp2]; subst.
    destruct (mate_valid d j opt a b D Va Vb) as (c1 & c2 & E & V1 & V2).
    destruct (IH rest (S j)) as (l & El & Vl & Ll); [simpl in Hn; lia|exact Hp2|].
    exists (c1 :: c2 :: l). cbn [mate_pairs]. rewrite E, El. split; [reflexivity|]. split; [constructor; [exact V1|constructor; assumption]|].
    cbn [length]. rewrite Ll. replace (S (S (length rest))) with (length rest + 1 * 2)%nat by lia. rewrite Nat.div_add by lia. lia.
  Qed.
  Lemma make_offspring_valid d opt pop : draws_ok d -> Forall (valid opt) pop ->
    exists l, make_offspring tb d opt pop = Some l /\ Forall (valid opt) l /\ length l = (2 * (length pop / 2))%nat.
  Proof.
    intros D Hp. unfold make_offspring. destruct (mate_pairs_valid d opt D (length pop) pop 0%nat (le_n _) Hp) as (l & -> & Vl & Ll).
    destruct (sequence_indexed (mutate_one tb d opt) (fun _ _ y => valid opt y) l) as (r & E & L & V).
    { intros i x Hx. rewrite Forall_forall in Vl. destruct (mutate_one_valid d i opt x D (Vl x (nth_error_In _ _ Hx))) as (y & Ey & Vy). eauto. }
    exists r. split; [exact E|]. split; [|congruence]. apply Forall_forall. intros y Hy. apply In_nth_error in Hy as [i Hi]. destruct (V i y Hi) as (_ & _ & H). exact H.
  Qed.
End Valid.
