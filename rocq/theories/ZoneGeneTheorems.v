(** C119: the genetic operators on zones. *)
From Coq Require Import List Bool Arith Lia.
From Verif Require Import ZoneGeneModel.
Import ListNotations.

(** ** Specification *)
(** [z] has a row of [cols] statuses for each of [works] works, each status below [statuses]. *)
Record fits (works cols statuses : nat) (z : zones) : Prop := {
  fi_rows : length z = works;
  fi_cols : forall row, In row z -> length row = cols;
  fi_cells : forall row s, In row z -> In s row -> s < statuses }.
(** what random.Random guarantees *)
Definition fair_randint (randint : nat -> nat -> nat) : Prop := forall lo hi, lo <= hi -> lo <= randint lo hi <= hi.
Definition fair_sample (sample : nat -> nat -> list nat) : Prop :=
  forall n k, k <= n -> NoDup (sample n k) /\ length (sample n k) = k /\ forall i, In i (sample n k) -> i < n.
Definition row (z : zones) (i : nat) : list nat := nth i z [].
Definition cell (z : zones) (i j : nat) : nat := nth j (nth i z []) 0.
(** The cells before cell [j] of row [i], row by row. *)
Definition cells_before (cols i j : nat) : list (nat * nat) := list_prod (seq 0 i) (seq 0 cols) ++ map (fun k => (i, k)) (seq 0 j).

(** ** Proofs *)
Lemma put_row_length z i r : i < length z -> length (put_row z i r) = length z.
Proof. intros H. unfold put_row. rewrite app_length. cbn [length]. rewrite firstn_length_le, skipn_length by lia. lia. Qed.
Lemma put_row_nth z i r k : i < length z -> nth k (put_row z i r) [] = if Nat.eqb k i then r else nth k z [].
Proof.
  revert i k. induction z as [|x z IH]; intros i k H; [cbn in H; lia|]. destruct i as [|i]; destruct k as [|k]; cbn; try reflexivity.
  cbn in H. apply (IH i k). lia.
Qed.
Lemma put_rows_facts l : forall z f, (forall i, In i l -> i < length z) ->
  length (put_rows z l (map f l)) = length z /\ forall k, nth k (put_rows z l (map f l)) [] = if in_dec Nat.eq_dec k l then f k else nth k z [].
Proof.
  unfold put_rows. induction l as [|i l IH]; intros z f H; [cbn; auto|]. cbn [map combine fold_left fst snd].
  assert (Hi : i < length z) by (apply H; left; reflexivity). destruct (IH (put_row z i (f i)) f) as [A B]; [intros j Hj; rewrite put_row_length by exact Hi; apply H; right; exact Hj|].
  split; [rewrite A; apply put_row_length, Hi|]. intros k. rewrite B, put_row_nth by exact Hi. destruct (in_dec Nat.eq_dec k l) as [Q|Q]; destruct (in_dec Nat.eq_dec k (i :: l)) as [Q'|Q']; [reflexivity|exfalso; apply Q'; right; exact Q| |].
  - destruct Q' as [->|Q']; [rewrite Nat.eqb_refl; reflexivity|contradiction].
  - destruct (Nat.eqb_spec k i) as [->|]; [exfalso; apply Q'; left; reflexivity|reflexivity].
Qed.
Lemma fits_rows works cols statuses z : fits works cols statuses z <-> length z = works /\ forall i, i < works -> length (row z i) = cols /\ forall s, In s (row z i) -> s < statuses.
Proof.
  split.
  - intros [R C D]. split; [exact R|]. intros i Hi. assert (I : In (row z i) z) by (apply nth_In; lia). split; [apply C, I|]. intros s Hs. exact (D _ _ I Hs).
  - intros [R H]. constructor; [exact R| |]; intros r; [intros Hr|intros s Hr Hs]; apply (In_nth _ _ []) in Hr as (i & Hi & <-); destruct (H i ltac:(lia)) as [H1 H2]; auto.
Qed.

(** ** C119 *)
(** Each child takes for each work the whole row of one parent, and the other child takes that of the
    other; at least a quarter of the works and at most all but a quarter are exchanged. *)
Theorem mate_exchanges randint sample works cols statuses z1 z2 : fair_randint randint -> fair_sample sample ->
  fits works cols statuses z1 -> fits works cols statuses z2 ->
  let (c1, c2) := mate_for_zones randint sample z1 z2 in
  fits works cols statuses c1 /\ fits works cols statuses c2 /\
  exists exchanged, NoDup exchanged /\ (forall i, In i exchanged -> i < works) /\
    (0 < works -> 0 < cols -> works / 4 <= length exchanged <= works - works / 4) /\
    forall i, i < works -> (In i exchanged -> row c1 i = row z2 i /\ row c2 i = row z1 i) /\ (~ In i exchanged -> row c1 i = row z1 i /\ row c2 i = row z2 i).
Proof.
  intros Fr Fs F1 F2. unfold mate_for_zones. destruct (Nat.eqb_spec (size z1) 0) as [E|E].
  - split; [exact F1|]. split; [exact F2|]. exists []. split; [constructor|]. split; [intros i []|]. split; [|intros i _; split; [intros []|auto]].
    intros Hw Hc. exfalso. destruct F1 as [R C _]. destruct z1 as [|r z1]; [cbn in R; lia|]. unfold size in E. cbn in E. rewrite app_length, (C r (in_eq _ _)) in E. lia.
  - assert (R1 := fi_rows _ _ _ _ F1). assert (R2 := fi_rows _ _ _ _ F2). rewrite R1.
    assert (Q : works / 4 <= works - works / 4) by (assert (D := Nat.div_mod works 4 ltac:(lia)); lia).
    assert (Rr := Fr _ _ Q). destruct (Fs works (randint (works / 4) (works - works / 4)) ltac:(lia)) as (Nd & Ln & Hin). set (l := sample works (randint (works / 4) (works - works / 4))) in *.
    destruct (put_rows_facts l z1 (fun i => nth i z2 []) ltac:(intros i Hi; rewrite R1; auto)) as [A1 B1]. destruct (put_rows_facts l z2 (fun i => nth i z1 []) ltac:(intros i Hi; rewrite R2; auto)) as [A2 B2].
    unfold get_rows. apply fits_rows in F1 as [_ F1]. apply fits_rows in F2 as [_ F2]. split; [|split].
    + apply fits_rows. split; [lia|]. intros i Hi. unfold row. rewrite B1. destruct (in_dec Nat.eq_dec i l); [apply F2, Hi|apply F1, Hi].
    + apply fits_rows. split; [lia|]. intros i Hi. unfold row. rewrite B2. destruct (in_dec Nat.eq_dec i l); [apply F1, Hi|apply F2, Hi].
    + exists l. split; [exact Nd|]. split; [exact Hin|]. split; [intros _ _; lia|]. intros i Hi. unfold row. rewrite B1, B2. destruct (in_dec Nat.eq_dec i l); split; intros; try contradiction; auto.
Qed.
Print Assumptions mate_exchanges.

Definition trues (m : list bool) : nat := length (filter (fun b => b) m).
Lemma set_row_facts : forall r m new, length m = length r -> trues m <= length new ->
  length (fst (set_row r m new)) = length r /\ snd (set_row r m new) = skipn (trues m) new /\
  forall j, j < length r -> (nth j m false = true -> nth j (fst (set_row r m new)) 0 = nth (trues (firstn j m)) new 0 /\ trues (firstn j m) < trues m) /\ (nth j m false = false -> nth j (fst (set_row r m new)) 0 = nth j r 0).
Proof.
  unfold trues. induction r as [|x r IH]; intros [|b m] new L K; try discriminate L; [cbn; split; [reflexivity|]; split; [reflexivity|intros j Hj; lia]|].
  cbn in L. injection L as L. destruct b; cbn [set_row filter length] in *.
  - destruct new as [|v new]; [cbn in K; lia|]. cbn in K. destruct (IH m new L ltac:(lia)) as (A & B & C). destruct (set_row r m new) as [r' rest]. cbn [fst snd length skipn] in *.
    split; [lia|]. split; [exact B|]. intros [|j] Hj; cbn [nth firstn filter length]; [split; [intros _; split; [reflexivity|lia]|discriminate]|]. destruct (C j ltac:(lia)) as [C1 C2]. split; [|exact C2]. intros H. destruct (C1 H). split; [assumption|lia].
  - destruct (IH m new L K) as (A & B & C). destruct (set_row r m new) as [r' rest]. cbn [fst snd length] in *.
    split; [lia|]. split; [exact B|]. intros [|j] Hj; cbn [nth firstn filter length]; [split; [discriminate|reflexivity]|apply C; lia].
Qed.
Lemma trues_app a b : trues (a ++ b) = trues a + trues b.
Proof. unfold trues. rewrite filter_app. apply app_length. Qed.
Lemma nth_skip c : forall (l : list nat) k, nth k (skipn c l) 0 = nth (c + k) l 0.
Proof. induction c as [|c IH]; intros [|x l] k; cbn; [reflexivity|reflexivity|destruct k; reflexivity|apply IH]. Qed.
Lemma set_cells_facts cols : forall z ms new, length ms = length z -> (forall r, In r z -> length r = cols) -> (forall m, In m ms -> length m = cols) -> trues (concat ms) <= length new ->
  length (set_cells z ms new) = length z /\
  forall i, i < length z -> length (row (set_cells z ms new) i) = cols /\
    forall j, j < cols -> (nth j (nth i ms []) false = true -> let k := trues (concat (firstn i ms)) + trues (firstn j (nth i ms [])) in cell (set_cells z ms new) i j = nth k new 0 /\ k < trues (concat ms)) /\
      (nth j (nth i ms []) false = false -> cell (set_cells z ms new) i j = cell z i j).
Proof.
  induction z as [|r z IH]; intros [|m ms] new L C Cm K; try discriminate L; [cbn; split; [reflexivity|intros i Hi; lia]|].
  cbn in L. injection L as L. cbn [concat] in *. rewrite trues_app in *.
  assert (Cr := C r (in_eq _ _)). assert (Cmm := Cm m (in_eq _ _)).
  destruct (set_row_facts r m new ltac:(lia) ltac:(lia)) as (A1 & B1 & C1). cbn [set_cells]. destruct (set_row r m new) as [r' rest]. cbn [fst snd] in *. subst rest.
  destruct (IH ms (skipn (trues m) new) L ltac:(intros y Hy; apply C; right; exact Hy) ltac:(intros y Hy; apply Cm; right; exact Hy) ltac:(rewrite skipn_length; lia)) as [A2 B2].
  split; [cbn; lia|]. intros [|i] Hi; unfold row, cell; cbn [nth firstn concat].
  - split; [lia|]. intros j Hj. destruct (C1 j ltac:(lia)) as [D1 D2]. split; [|exact D2]. intros H. destruct (D1 H) as [D3 D4]. change (trues []) with 0. cbn [plus]. split; [exact D3|lia].
  - cbn in Hi. destruct (B2 i ltac:(lia)) as [D1 D2]. split; [exact D1|]. intros j Hj. destruct (D2 j Hj) as [D3 D4]. split; [|exact D4]. intros H. destruct (D3 H) as [D5 D6]. rewrite trues_app. split; [|lia]. unfold cell in D5. rewrite D5, nth_skip. f_equal. lia.
Qed.

Lemma trues_row (mutated : nat -> nat -> bool) (i : nat) (l : list nat) : trues (map (mutated i) l) = length (filter (fun p : nat * nat => mutated (fst p) (snd p)) (map (fun k => (i, k)) l)).
Proof. unfold trues. induction l as [|x l IH]; cbn; [reflexivity|]. destruct (mutated i x); cbn; rewrite IH; reflexivity. Qed.
Lemma trues_prod (mutated : nat -> nat -> bool) (l L : list nat) : trues (concat (map (fun i => map (mutated i) l) L)) = length (filter (fun p : nat * nat => mutated (fst p) (snd p)) (list_prod L l)).
Proof. induction L as [|x L IH]; cbn [map concat list_prod]; [reflexivity|]. rewrite trues_app, IH, trues_row, filter_app, app_length. reflexivity. Qed.
Lemma firstn_seq i : forall s n, i <= n -> firstn i (seq s n) = seq s i.
Proof. induction i as [|i IH]; intros s [|n] H; cbn; try reflexivity; [lia|]. f_equal. apply IH. lia. Qed.

(** Mutation keeps the table and the statuses within what is available; exactly the cells drawn for
    mutation get a drawn status, each the draw of its own turn, and the others stay. It does not fail. *)
Theorem mutate_keeps mutated draw works cols statuses z : (forall k, 0 < statuses -> draw k < statuses) -> fits works cols statuses z ->
  exists z', mutate_for_zones mutated draw statuses z = Some z' /\ fits works cols statuses z' /\
    forall i j, i < works -> j < cols -> (mutated i j = false -> cell z' i j = cell z i j) /\
      (mutated i j = true -> cell z' i j = draw (length (filter (fun p : nat * nat => mutated (fst p) (snd p)) (cells_before cols i j)))).
Proof.
  intros Hd F. assert (F' := F). apply fits_rows in F' as [R G]. unfold mutate_for_zones.
  destruct (Nat.eqb_spec (size z) 0) as [E|E]; [exists z; split; [reflexivity|]; split; [exact F|]; intros i j Hi Hj; exfalso; destruct z as [|r z]; [cbn in R; lia|]; unfold size in E; cbn in E; rewrite app_length, (fi_cols _ _ _ _ F r (in_eq _ _)) in E; lia|].
  assert (Hc : length (hd [] z) = cols) by (destruct z as [|r z]; [exfalso; apply E; reflexivity|apply (fi_cols _ _ _ _ F), in_eq]).
  assert (P : 0 < statuses). { unfold size in E. destruct (concat z) as [|s l] eqn:Ec; [exfalso; apply E; reflexivity|]. assert (I : In s (concat z)) by (rewrite Ec; left; reflexivity). apply in_concat in I as (r & I1 & I2). assert (Q := fi_cells _ _ _ _ F r s I1 I2). lia. }
  destruct (Nat.eqb_spec statuses 0) as [Q|_]; [lia|]. cbn [andb]. eexists. split; [reflexivity|].
  destruct (set_cells_facts cols z (mask_of mutated z) (map draw (seq 0 (mask_sum (mask_of mutated z))))) as [A B].
  - unfold mask_of. rewrite map_length, seq_length. reflexivity.
  - apply (fi_cols _ _ _ _ F).
  - unfold mask_of. intros m Hm. apply in_map_iff in Hm as (i & <- & _). rewrite map_length, seq_length. exact Hc.
  - rewrite map_length, seq_length. apply le_n.
  - set (z' := set_cells z (mask_of mutated z) (map draw (seq 0 (mask_sum (mask_of mutated z))))) in *.
    assert (M0 : forall i, i < works -> nth i (mask_of mutated z) [] = map (mutated i) (seq 0 cols)).
    { intros i Hi. unfold mask_of. rewrite Hc. rewrite (nth_indep _ [] (map (mutated 0) (seq 0 cols))) by (rewrite map_length, seq_length; lia).
      rewrite (map_nth (fun i => map (mutated i) (seq 0 cols))). rewrite (@seq_nth (length z) 0 i 0) by lia. reflexivity. }
    assert (M : forall i j, i < works -> j < cols -> nth j (nth i (mask_of mutated z) []) false = mutated i j).
    { intros i j Hi Hj. rewrite M0 by exact Hi. rewrite (nth_indep _ false (mutated i 0)) by (rewrite map_length, seq_length; lia). rewrite (map_nth (mutated i)). rewrite (@seq_nth cols 0 j 0) by lia. reflexivity. }
    assert (H : forall i j, i < works -> j < cols -> (mutated i j = false -> cell z' i j = cell z i j) /\
      (mutated i j = true -> cell z' i j = draw (length (filter (fun p : nat * nat => mutated (fst p) (snd p)) (cells_before cols i j))))).
    { intros i j Hi Hj. destruct (B i ltac:(lia)) as [_ B2]. destruct (B2 j Hj) as [B3 B4]. rewrite (M i j Hi Hj) in B3, B4. split; [exact B4|]. intros Hm. destruct (B3 Hm) as [B5 B6].
      rewrite B5. rewrite (nth_indep _ 0 (draw 0)) by (rewrite map_length, seq_length; exact B6). rewrite (map_nth draw). rewrite seq_nth by exact B6. cbn [plus]. f_equal.
      unfold cells_before. rewrite filter_app, app_length. rewrite <- trues_prod, <- trues_row. rewrite M0 by exact Hi. rewrite firstn_map, firstn_seq by lia. unfold mask_of. rewrite firstn_map, firstn_seq by lia. rewrite Hc. reflexivity. }
    split; [|exact H]. apply fits_rows. split; [lia|]. intros i Hi. destruct (B i ltac:(lia)) as [B1 _]. split; [exact B1|]. intros s Hs. apply (In_nth _ _ 0) in Hs as (j & Hj & <-). rewrite B1 in Hj.
    change (cell z' i j < statuses). destruct (H i j Hi Hj) as [H1 H2]. destruct (mutated i j); [rewrite (H2 eq_refl); apply Hd, P|]. rewrite (H1 eq_refl).
    destruct (G i Hi) as [G1 G2]. apply G2. unfold cell. apply nth_In. change (nth i z []) with (row z i). lia.
Qed.
Print Assumptions mutate_keeps.

(** Four works, two zones: works 1 and 2 are exchanged. *)
Example mate_example : mate_for_zones (fun _ _ => 2) (fun _ _ => [2; 1]) [[0; 1]; [0; 2]; [1; 1]; [2; 2]] [[1; 0]; [1; 1]; [2; 0]; [0; 0]] =
  ([[0; 1]; [1; 1]; [2; 0]; [2; 2]], [[1; 0]; [0; 2]; [1; 1]; [0; 0]]).
Proof. reflexivity. Qed.
Example mutate_example : mutate_for_zones (fun i j => Nat.eqb i j) (fun k => S k) 3 [[0; 1]; [0; 2]; [1; 1]] = Some [[1; 1]; [0; 2]; [1; 1]].
Proof. reflexivity. Qed.
