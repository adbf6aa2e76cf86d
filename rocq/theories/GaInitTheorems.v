(** Property C66: the first population of the genetic scheduler. *)
From Coq Require Import List Bool Arith Lia Permutation.
From Verif Require Import GeneticResModel GaModel GaProofs GaInitModel.
Import ListNotations.

Lemma ceil_bound a b : 0 < b -> ceil_div a b * b <= a + b - 1.
Proof. intros H. unfold ceil_div. rewrite Nat.mul_comm. apply Nat.mul_div_le. lia. Qed.
Lemma ceil_positive a b : 0 < a -> 0 < b -> 0 < ceil_div a b.
Proof. intros Ha Hb. unfold ceil_div. apply Nat.div_str_pos. lia. Qed.
Lemma counts_bound c W : 0 < W -> forall ws, list_sum (map (fun w => ceil_div (c * w) W) ws) * W <= c * list_sum ws + length ws * (W - 1).
Proof.
  intros HW. induction ws as [|w ws IH]; [simpl; lia|]. cbn [map list_sum fold_right length] in *.
  fold (list_sum (map (fun w0 => ceil_div (c * w0) W) ws)). fold (list_sum ws).
  assert (G := ceil_bound (c * w) W HW). unfold list_sum in *. nia.
Qed.
Lemma counts_one W : 0 < W -> forall ws, (forall w, In w ws -> w <= W) -> list_sum (map (fun w => ceil_div (1 * w) W) ws) <= length ws.
Proof.
  intros HW. induction ws as [|w ws IH]; intros H; cbn [map list_sum fold_right length] in *; [lia|].
  assert (G : ceil_div (1 * w) W <= 1).
  { unfold ceil_div. rewrite Nat.mul_1_l. apply Nat.lt_succ_r. apply Nat.div_lt_upper_bound; [lia|]. assert (w <= W) by (apply H; left; reflexivity). lia. }
  specialize (IH (fun x Hx => H x (or_intror Hx))). unfold list_sum in *. lia.
Qed.
Lemma in_sum w ws : In w ws -> w <= list_sum ws.
Proof. induction ws as [|x ws IH]; intros H; [destruct H|]. change (list_sum (x :: ws)) with (x + list_sum ws). destruct H as [->|H]; [lia|apply IH in H; lia]. Qed.

(** Enough room: the offered individuals are exactly [n]. *)
Lemma specified_fits n ws : 0 < list_sum ws -> length ws + 2 <= n -> list_sum (heuristic_counts n ws) + 2 <= n.
Proof.
  intros HW Hn. unfold heuristic_counts.
  assert (Hm : 0 < length ws) by (destruct ws; [simpl in HW; lia|simpl; lia]).
  unfold count_for_specified. destruct (Nat.ltb_spec 0 (n / 3 / length ws)) as [Hc|Hc].
  - set (c := n / 3 / length ws) in *.
    assert (H1 : length ws * c <= n / 3) by (apply Nat.mul_div_le; lia).
    assert (H2 : 3 * (n / 3) <= n) by (apply Nat.mul_div_le; lia).
    assert (Hs : list_sum (map (fun w => ceil_div (c * w) (list_sum ws)) ws) <= if Nat.eqb c 1 then length ws else c + length ws).
    { destruct (Nat.eqb_spec c 1) as [->|Hc1]; [apply counts_one; [exact HW|intros w Hw; apply in_sum, Hw]|].
      assert (G := counts_bound c (list_sum ws) HW ws). nia. }
    destruct (Nat.eqb_spec c 1) as [E|E]; [lia|]. assert (length ws + c + 2 <= 3 * (length ws * c)) by nia. lia.
  - assert (Hs := counts_one (list_sum ws) HW ws (fun w Hw => in_sum w ws Hw)). lia.
Qed.
Lemma repeat_sum {A} (f : nat -> A) : forall cs i, length (concat (map (fun ic => repeat (f (fst ic)) (snd ic)) (combine (seq i (length cs)) cs))) = list_sum cs.
Proof.
  induction cs as [|c cs IH]; intros i; [reflexivity|]. cbn [length seq combine map concat fst snd]. rewrite app_length, repeat_length, IH. reflexivity.
Qed.
Lemma offered_length n ws : n <= length (offered n ws) /\ (list_sum (heuristic_counts n ws) + 2 <= n -> length (offered n ws) = n).
Proof.
  unfold offered. cbv zeta. rewrite !app_length, !repeat_length, repeat_sum. set (s := list_sum (heuristic_counts n ws)).
  unfold lft_count, topological_count. assert (H2 : 2 * (n / 2) <= n) by (apply Nat.mul_div_le; lia).
  destruct (Nat.ltb_spec s (n / 2)); [destruct (Nat.ltb_spec (n / 2 - s + s) n)|destruct (Nat.ltb_spec (1 + s) n)]; lia.
Qed.
Lemma repeat_In {A} (x : A) k : In x (repeat x k) <-> 0 < k.
Proof. destruct k; simpl; split; intros H; try lia; try tauto. Qed.
Lemma combine_seq_nth {A} (l : list A) : forall i s a, nth_error l i = Some a -> In (s + i, a) (combine (seq s (length l)) l).
Proof.
  induction l as [|x l IH]; intros [|i] s a H; simpl in *; try discriminate; [injection H as ->; left; f_equal; lia|].
  right. replace (s + S i) with (S s + i) by lia. apply IH, H.
Qed.
Lemma combine_seq_in {A} (l : list A) : forall s j a, In (j, a) (combine (seq s (length l)) l) -> nth_error l (j - s) = Some a /\ s <= j < s + length l.
Proof.
  induction l as [|x l IH]; intros s j a H; simpl in H; [destruct H|]. destruct H as [H|H].
  - injection H as <- <-. rewrite Nat.sub_diag. simpl. split; [reflexivity|lia].
  - apply IH in H as [H1 H2]. replace (j - s) with (S (j - S s)) by lia. simpl. split; [exact H1|simpl; lia].
Qed.
Lemma offered_heuristic n ws i w : nth_error ws i = Some w -> 0 < w -> In (Heuristic i) (offered n ws).
Proof.
  intros Hi Hw. unfold offered. cbv zeta. apply in_or_app. left. apply in_concat.
  assert (Hc : nth_error (heuristic_counts n ws) i = Some (ceil_div (count_for_specified n (length ws) * w) (list_sum ws))).
  { unfold heuristic_counts. exact (map_nth_error (fun w0 => ceil_div (count_for_specified n (length ws) * w0) (list_sum ws)) i ws Hi). }
  eexists. split; [apply in_map; apply (combine_seq_nth _ i 0 _ Hc)|]. cbn [fst snd Nat.add]. apply repeat_In.
  assert (Hs := in_sum w ws (nth_error_In _ _ Hi)).
  apply ceil_positive; [|lia]. apply Nat.mul_pos_pos; [|exact Hw].
  unfold count_for_specified. destruct (Nat.ltb_spec 0 (n / 3 / length ws)); lia.
Qed.
Lemma offered_topological n ws : In RandTopological (offered n ws).
Proof.
  unfold offered. cbv zeta. apply in_or_app. right. apply in_or_app. left. apply repeat_In. unfold topological_count.
  destruct (Nat.ltb_spec (list_sum (heuristic_counts n ws)) (n / 2)); lia.
Qed.
Lemma offered_lft n ws : In RandLft (offered n ws).
Proof.
  unfold offered. cbv zeta. apply in_or_app. right. apply in_or_app. right. apply repeat_In. unfold lft_count.
  match goal with |- context [Nat.ltb ?a ?b] => destruct (Nat.ltb_spec a b) end; lia.
Qed.
Lemma offered_origin n ws i : In (Heuristic i) (offered n ws) -> i < length ws.
Proof.
  unfold offered. cbv zeta. rewrite !in_app_iff. intros [H|[H|H]]; [|apply repeat_spec in H; discriminate|apply repeat_spec in H; discriminate].
  apply in_concat in H as (l & Hl & H). apply in_map_iff in Hl as ((j & c) & <- & Hj). cbn [fst snd] in H. apply repeat_spec in H. injection H as ->.
  apply combine_seq_in in Hj as [_ Hj]. unfold heuristic_counts in Hj. rewrite map_length in Hj. lia.
Qed.

Lemma sequence_map_total {A B} (f : A -> option B) l : (forall x, In x l -> f x <> None) -> exists r, sequence (map f l) = Some r.
Proof.
  induction l as [|x l IH]; intros H; simpl; [eauto|]. destruct (f x) as [y|] eqn:E; [|exfalso; apply (H x); [left; reflexivity|exact E]].
  destruct IH as [r ->]; [intros z Hz; apply H; right; exact Hz|]. eauto.
Qed.
Lemma sequence_map_len {A B} (f : A -> option B) l r : sequence (map f l) = Some r -> Forall2 (fun x y => f x = Some y) l r.
Proof.
  revert r. induction l as [|x l IH]; intros r H; simpl in H; [injection H as <-; constructor|].
  destruct (f x) as [y|] eqn:E; [|discriminate]. destruct (sequence (map f l)) as [r'|]; [|discriminate]. injection H as <-. constructor; [exact E|apply IH; reflexivity].
Qed.
Lemma forall2_len {A B} (P : A -> B -> Prop) l r : Forall2 P l r -> length l = length r.
Proof. induction 1; simpl; congruence. Qed.

(** C66. With heuristics that all found a schedule, weights that are not all 0 and draws
    that do not raise, the first population has exactly [n] individuals, each of them from
    a heuristic or a draw. If [n] exceeds the number of heuristics by two, the population
    includes every heuristic of positive weight and draws of both kinds. *)
Theorem first_population_correct :
  forall C sample (topo lft : nat -> option C) n (heuristics : list (C * nat)),
    (forall l k, k <= length l -> length (sample l k) = k /\ exists rest, Permutation (sample l k ++ rest) l) ->
    (forall j, topo j <> None) -> (forall j, lft j <> None) ->
    (exists c w, In (c, w) heuristics /\ 0 < w) ->
    exists pop, first_population sample topo lft n (map Some heuristics) = Some pop /\ length pop = n /\
      (forall x, In x pop -> In x (map fst heuristics) \/ exists j, topo j = Some x \/ lft j = Some x) /\
      (length heuristics + 2 <= n ->
        (forall c w, In (c, w) heuristics -> 0 < w -> In c pop) /\
        (exists j c, topo j = Some c /\ In c pop) /\ (exists j c, lft j = Some c /\ In c pop)).
Proof.
  intros C sample topo lft n hs Hsample Ht Hl (c0 & w0 & Hin0 & Hw0). unfold first_population.
  assert (Es : sequence (map Some hs) = Some hs).
  { clear. induction hs as [|h hs IH]; [reflexivity|]. simpl. rewrite IH. reflexivity. }
  rewrite Es. cbv zeta.
  assert (HW : 0 < list_sum (map snd hs)).
  { assert (G := in_sum w0 (map snd hs) (in_map snd _ _ Hin0)). lia. }
  assert (Hlen : length hs <> 0) by (destruct hs; [destruct Hin0|discriminate]).
  destruct (Nat.eqb_spec (length hs) 0) as [E|_]; [contradiction|]. destruct (Nat.eqb_spec (list_sum (map snd hs)) 0) as [E|_]; [lia|]. cbn [orb].
  destruct (offered_length n (map snd hs)) as [O1 O2].
  destruct (Hsample _ _ O1) as (S1 & rest & S2). set (types := sample (offered n (map snd hs)) n) in *.
  assert (Hty : forall o, In o types -> In o (offered n (map snd hs))) by (intros o Ho; apply (Permutation_in _ S2), in_or_app; left; exact Ho).
  assert (Hnth : forall i, i < length hs -> exists c w, nth_error (map Some hs) i = Some (Some (c, w)) /\ In (c, w) hs).
  { intros i Hi. destruct (nth_error hs i) as [[c w]|] eqn:E; [|apply nth_error_None in E; lia]. exists c, w. split; [exact (map_nth_error Some i hs E)|exact (nth_error_In _ _ E)]. }
  destruct (sequence_map_total (fun jo => chromosome_for topo lft (map Some hs) (fst jo) (snd jo)) (combine (seq 0 (length types)) types)) as [cs Ecs].
  { intros [j o] Ho. apply in_combine_r in Ho. apply Hty in Ho. cbn [fst snd]. destruct o as [i| |]; cbn [chromosome_for]; [|apply Ht|apply Hl].
    apply offered_origin in Ho. rewrite map_length in Ho. destruct (Hnth i Ho) as (c & w & -> & _). discriminate. }
  rewrite Ecs. apply sequence_map_len in Ecs. assert (Lc := forall2_len _ _ _ Ecs). rewrite combine_length, seq_length, Nat.min_id, S1 in Lc.
  rewrite firstn_all2 by lia. exists cs. split; [reflexivity|]. split; [lia|].
  split.
  - intros x Hx. destruct (forall2_right _ _ _ _ Ecs Hx) as ([j o] & Ho & E). apply in_combine_r, Hty in Ho. cbn [fst snd] in E.
    destruct o as [i| |]; cbn [chromosome_for] in E; [left|right; eauto|right; eauto].
    apply offered_origin in Ho. rewrite map_length in Ho. destruct (Hnth i Ho) as (c & w & En & Hin). rewrite En in E. injection E as <-.
    apply (in_map fst _ _ Hin).
  - intros Hn.
    assert (Hall : forall o, In o (offered n (map snd hs)) -> In o types).
    { intros o Ho. assert (Lo : length (offered n (map snd hs)) = n) by (apply O2, specified_fits; [exact HW|rewrite map_length; exact Hn]).
      assert (Lr := Permutation_length S2). rewrite app_length in Lr. destruct rest; [|simpl in Lr; lia]. rewrite app_nil_r in S2. apply (Permutation_in _ (Permutation_sym S2)), Ho. }
    assert (Hget : forall o, In o (offered n (map snd hs)) -> exists j c, chromosome_for topo lft (map Some hs) j o = Some c /\ In c cs).
    { intros o Ho. apply Hall in Ho. destruct (In_nth_error _ _ Ho) as [j Hj]. assert (G := combine_seq_nth _ j 0 _ Hj). cbn [Nat.add] in G.
      destruct (forall2_left _ _ _ _ Ecs G) as (c & Hc & E). exists j, c. split; [exact E|exact Hc]. }
    split; [|split].
    + intros c w Hin Hw. destruct (In_nth_error _ _ Hin) as [i Hi].
      destruct (Hget (Heuristic i)) as (j & c' & E & Hc); [apply (offered_heuristic n (map snd hs) i w); [exact (map_nth_error snd i hs Hi)|exact Hw]|].
      cbn [chromosome_for] in E. rewrite (map_nth_error Some i hs Hi) in E. injection E as <-. exact Hc.
    + destruct (Hget RandTopological (offered_topological _ _)) as (j & c & E & Hc). exists j, c. auto.
    + destruct (Hget RandLft (offered_lft _ _)) as (j & c & E & Hc). exists j, c. auto.
Qed.
Print Assumptions first_population_correct.

(** With only LFT schedules: [n] individuals, the last is the LFT heuristic's. *)
Theorem first_population_lft_correct :
  forall C (lft : nat -> option C) n c w, 0 < n -> (forall j, lft j <> None) ->
    exists pop, first_population_lft lft n (Some (c, w)) = Some pop /\ length pop = n /\ In c pop /\
      (forall x, In x pop -> x = c \/ exists j, lft j = Some x).
Proof.
  intros C lft n c w Hn Hl. unfold first_population_lft. destruct (sequence_map_total lft (seq 0 (n - 1))) as [cs E]; [intros; apply Hl|].
  rewrite E. apply sequence_map_len in E. assert (L := forall2_len _ _ _ E). rewrite seq_length in L.
  exists (cs ++ [c]). split; [reflexivity|]. split; [rewrite app_length; simpl; lia|]. split; [apply in_or_app; right; left; reflexivity|].
  intros x Hx. apply in_app_or in Hx as [Hx|[Hx|[]]]; [|left; congruence]. destruct (forall2_right _ _ _ _ E Hx) as (j & _ & Ej). right. eauto.
Qed.
Print Assumptions first_population_lft_correct.

(** The seven heuristics of GeneticScheduler with their default weights, population size 50:
    a legal sample is the whole offer in its order. *)
Definition gi_weights := [2; 2; 2; 1; 1; 1; 1].
Definition gi_heuristics := combine (seq 100 7) gi_weights.
Definition gi_sample (l : list origin) (k : nat) := firstn k l.
Lemma gi_sample_ok l k : k <= length l -> length (gi_sample l k) = k /\ exists rest, Permutation (gi_sample l k ++ rest) l.
Proof. intros H. unfold gi_sample. split; [rewrite firstn_length; lia|]. exists (skipn k l). rewrite firstn_skipn. reflexivity. Qed.
Example first_population_example : exists pop,
  first_population gi_sample (fun j => Some (200 + j)) (fun j => Some (300 + j)) 50 (map Some gi_heuristics) = Some pop /\
  length pop = 50 /\ (forall i, i < 7 -> In (100 + i) pop).
Proof.
  destruct (first_population_correct nat gi_sample (fun j => Some (200 + j)) (fun j => Some (300 + j)) 50 gi_heuristics gi_sample_ok) as (pop & E & L & _ & H);
    [discriminate|discriminate|exists 100, 2; split; [left; reflexivity|lia]|].
  exists pop. split; [exact E|]. split; [exact L|]. destruct H as [H _]; [simpl; lia|].
  intros i Hi. destruct i as [|[|[|[|[|[|[|]]]]]]]; try lia; eapply H; simpl; eauto 10; lia.
Qed.
(** Finding: with a population of eight, one of the seven heuristics can be left out. *)
Theorem small_population_omits_heuristic :
  exists sample pop, (forall l k, k <= length l -> length (sample l k) = k /\ exists rest, Permutation (sample l k ++ rest) l) /\
    first_population sample (fun j => Some (200 + j)) (fun j => Some (300 + j)) 8 (map Some gi_heuristics) = Some pop /\ ~ In 100 pop.
Proof.
  exists (fun l k => skipn (length l - k) l).
  eexists. split; [|split; [vm_compute; reflexivity|vm_compute; intuition discriminate]].
  intros l k H. split; [rewrite skipn_length; lia|]. exists (firstn (length l - k) l).
  etransitivity; [apply Permutation_app_comm|]. rewrite firstn_skipn. reflexivity.
Qed.
Print Assumptions small_population_omits_heuristic.
(** Finding: if a heuristic finds no contractor, the population is not created, whatever
    the other heuristics found. *)
Theorem failed_heuristic_breaks_population :
  forall C sample (topo lft : nat -> option C) n heuristics, In None heuristics -> first_population sample topo lft n heuristics = None.
Proof.
  intros C sample topo lft n hs H. unfold first_population.
  assert (E : sequence hs = None).
  { induction hs as [|h hs IH]; [destruct H|]. simpl. destruct H as [->|H]; [reflexivity|]. rewrite (IH H). destruct h; reflexivity. }
  rewrite E. reflexivity.
Qed.
Print Assumptions failed_heuristic_breaks_population.
