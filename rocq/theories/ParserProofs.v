(** Proofs about the reading of a table of works. *)
From Coq Require Import ZArith QArith List Bool Ascii String Lia Arith Relations Permutation Sorted.
From Verif Require Import TimeModel MomentumModel GraphModel ScheduleSpec Digraph StableSort TopoModel TopoProofs
  TraverseModel TraverseProofs TraverseTheorems ParserModel.
From Verif Require LoopModel LoopTheorems.
Import ListNotations.
Local Open Scope Z_scope.

Lemma str_eqb_true a b : str_eqb a b = true <-> a = b.
Proof. unfold str_eqb. destruct (list_eq_dec _ _ _); split; congruence. Qed.
Lemma str_eqb_false a b : str_eqb a b = false <-> a <> b.
Proof. unfold str_eqb. destruct (list_eq_dec _ _ _); split; congruence. Qed.
Lemma str_eqb_refl a : str_eqb a a = true.
Proof. now apply str_eqb_true. Qed.
Lemma str_mem_true a l : str_mem a l = true <-> In a l.
Proof.
  unfold str_mem. rewrite existsb_exists. split.
  - intros (x & Hx & E). apply str_eqb_true in E. now subst.
  - intros H. exists a. split; [exact H|apply str_eqb_refl].
Qed.
Lemma str_mem_false a l : str_mem a l = false <-> ~ In a l.
Proof. rewrite <- str_mem_true. destruct (str_mem a l); split; congruence. Qed.

(** ** Splitting *)
Fixpoint join (l : list str) : str :=
  match l with
  | [] => []
  | x :: [] => x
  | x :: r => x ++ ("," :: join r)%char
  end.
Definition no_comma (s : str) : Prop := ~ In ","%char s.
Lemma split_go_plain s : no_comma s -> forall rest cur,
  split_go (s ++ rest) cur = split_go rest (rev s ++ cur).
Proof.
  induction s as [|c s IH]; intros Hs rest cur; [reflexivity|]. cbn [app split_go rev].
  destruct (ascii_dec c ","%char) as [->|]; [exfalso; apply Hs; left; reflexivity|].
  rewrite IH by (intros H; apply Hs; right; exact H). rewrite <- app_assoc. reflexivity.
Qed.
Lemma split_join l : l <> [] -> (forall x, In x l -> no_comma x) -> split (join l) = l.
Proof.
  unfold split. induction l as [|x l IH]; intros Hne Hc; [congruence|].
  destruct l as [|y l].
  - cbn [join]. rewrite <- (app_nil_r x) at 1. rewrite split_go_plain by (apply Hc; left; reflexivity).
    cbn. rewrite app_nil_r, rev_involutive. reflexivity.
  - change (join (x :: y :: l)) with (x ++ (","%char :: join (y :: l))).
    rewrite split_go_plain by (apply Hc; left; reflexivity). cbn [split_go].
    destruct (ascii_dec ","%char ","%char) as [_|C]; [|congruence].
    rewrite app_nil_r, rev_involutive. f_equal. apply IH; [congruence|]. intros z Hz. apply Hc. right. exact Hz.
Qed.
Lemma map_res_ok {A B} (f : A -> res B) (g : A -> B) l : (forall x, In x l -> f x = Ok (g x)) ->
  map_res f l = Ok (map g l).
Proof.
  induction l as [|x l IH]; intros H; [reflexivity|]. cbn [map_res map]. rewrite H by (left; reflexivity). cbn [bind].
  rewrite IH by (intros y Hy; apply H; right; exact Hy). reflexivity.
Qed.
Lemma map_res_length {A B} (f : A -> res B) l l' : map_res f l = Ok l' -> List.length l' = List.length l.
Proof.
  revert l'. induction l as [|x l IH]; intros l' E; cbn in E; [injection E as <-; reflexivity|].
  destruct (f x); cbn in E; [|discriminate]. destruct (map_res f l); cbn in E; [|discriminate]. injection E as <-.
  cbn. rewrite (IH _ eq_refl). reflexivity.
Qed.
Lemma map_res_map {A B C} (f : B -> res C) (g : A -> B) l : map_res f (map g l) = map_res (fun x => f (g x)) l.
Proof. induction l as [|x l IH]; [reflexivity|]. cbn. rewrite IH. reflexivity. Qed.

(** a cell that lists texts, none of them empty, "nan" or with a comma *)
Definition element (s : str) : Prop := no_comma s /\ s <> [] /\ s <> lit "nan".
Lemma fix_cell_list {A} (cast : str -> res A) (none : A) (g : str -> A) l : l <> [] ->
  (forall x, In x l -> element x /\ cast x = Ok (g x)) ->
  fix_cell cast none (Some (join l)) = Ok (map g l).
Proof.
  intros Hne H. unfold fix_cell.
  assert (E : str_eqb (join l) (lit "nan") = false).
  { apply str_eqb_false. intros E. destruct l as [|x [|y l]]; [congruence| |].
    - destruct (H x (or_introl eq_refl)) as ((_ & _ & Hx) & _). apply Hx. exact E.
    - assert (C : In ","%char (lit "nan")).
      { rewrite <- E. change (join (x :: y :: l)) with (x ++ (","%char :: join (y :: l))). apply in_or_app. right. left. reflexivity. }
      cbn in C. intuition congruence. }
  rewrite E, split_join; [|exact Hne|intros x Hx; apply H; exact Hx].
  apply map_res_ok. intros x Hx. destruct (H x Hx) as ((_ & H1 & H2) & Ec).
  apply str_eqb_false in H1, H2. rewrite H1, H2. exact Ec.
Qed.

(** ** Numbers *)
Lemma is_digit_spec c : is_digit c = true <-> 0 <= digit_value c <= 9.
Proof. unfold is_digit. rewrite andb_true_iff, !Z.leb_le. tauto. Qed.
Lemma digit_digit_value c : is_digit c = true -> digit (digit_value c) = c.
Proof.
  intros _. unfold digit, digit_value. replace (Z.of_N (N_of_ascii c) - 48 + 48) with (Z.of_N (N_of_ascii c)) by lia.
  rewrite N2Z.id. apply ascii_N_embedding.
Qed.
Lemma value_app s c : value (s ++ [c]) = 10 * value s + digit_value c.
Proof. unfold value. rewrite fold_left_app. reflexivity. Qed.
Lemma value_nonneg s : forallb is_digit s = true -> 0 <= value s.
Proof.
  induction s as [|c s IH] using rev_ind; [intros _; cbn; lia|]. rewrite forallb_app. intros H.
  apply andb_true_iff in H as [H1 H2]. cbn in H2. rewrite andb_true_r in H2. apply is_digit_spec in H2.
  rewrite value_app. specialize (IH H1). lia.
Qed.
(** a numeral without superfluous zeros *)
Definition numeral (s : str) : Prop := isdigit s = true /\ (s = lit "0" \/ hd "0"%char s <> "0"%char).
Lemma value_first c s : is_digit c = true -> forallb is_digit s = true -> c <> "0"%char -> 1 <= value (c :: s).
Proof.
  intros Hc. induction s as [|d s IH] using rev_ind; intros Hs Hn.
  - unfold value. cbn [fold_left]. apply is_digit_spec in Hc.
    assert (digit_value c <> 0); [|lia]. intros E. apply Hn.
    rewrite <- (digit_digit_value c) by (apply is_digit_spec; lia). rewrite E. reflexivity.
  - rewrite forallb_app in Hs. apply andb_true_iff in Hs as [H1 H2]. cbn in H2. rewrite andb_true_r in H2.
    apply is_digit_spec in H2. change (c :: s ++ [d]) with ((c :: s) ++ [d]). rewrite value_app. specialize (IH H1 Hn). lia.
Qed.
Lemma show_go_value : forall s fuel acc, numeral s -> (List.length s <= fuel)%nat -> show_go fuel (value s) acc = s ++ acc.
Proof.
  induction s as [|c s IH] using rev_ind; intros fuel acc (Hd & Hz) Hf; [discriminate|].
  rewrite app_length in Hf. cbn in Hf. destruct fuel as [|f]; [lia|].
  assert (Hd' : forallb is_digit (s ++ [c]) = true) by (destruct (s ++ [c]); [discriminate|exact Hd]).
  rewrite forallb_app in Hd'. apply andb_true_iff in Hd' as [H1 H2]. cbn in H2. rewrite andb_true_r in H2.
  assert (Hc := proj1 (is_digit_spec c) H2). rewrite value_app. cbn [show_go].
  destruct s as [|c0 s].
  - cbn [value fold_left app]. change (10 * 0 + digit_value c) with (digit_value c).
    destruct (Z.ltb_spec (digit_value c) 10); [|lia]. rewrite digit_digit_value by exact H2. reflexivity.
  - assert (Hn0 : c0 <> "0"%char).
    { destruct Hz as [E|E]; [|exact E]. exfalso. change (lit "0") with (["0"]%char) in E.
      apply (f_equal (@List.length ascii)) in E. cbn in E. rewrite app_length in E. cbn in E. lia. }
    assert (Hv : 1 <= value (c0 :: s)).
    { cbn in H1. apply andb_true_iff in H1 as [Hc0 Hs]. apply value_first; assumption. }
    destruct (Z.ltb_spec (10 * value (c0 :: s) + digit_value c) 10); [lia|].
    assert (Ed : (10 * value (c0 :: s) + digit_value c) / 10 = value (c0 :: s)).
    { symmetry. apply Z.div_unique with (digit_value c); lia. }
    assert (Em : (10 * value (c0 :: s) + digit_value c) mod 10 = digit_value c).
    { symmetry. apply Z.mod_unique with (value (c0 :: s)); lia. }
    rewrite Ed, Em, digit_digit_value by exact H2. rewrite IH.
    + rewrite <- app_assoc. reflexivity.
    + split; [exact H1|]. right. exact Hn0.
    + cbn in *. lia.
Qed.
Lemma numeral_length s : numeral s -> (List.length s <= S (Z.to_nat (Z.log2 (value s))))%nat.
Proof.
  induction s as [|c s IH] using rev_ind; intros (Hd & Hz); [cbn; lia|].
  rewrite app_length. cbn [List.length].
  assert (Hd' : forallb is_digit (s ++ [c]) = true) by (destruct (s ++ [c]); [discriminate|exact Hd]).
  rewrite forallb_app in Hd'. apply andb_true_iff in Hd' as [H1 H2]. cbn in H2. rewrite andb_true_r in H2.
  apply is_digit_spec in H2. rewrite value_app. destruct s as [|c0 s]; [cbn; lia|].
  assert (Hn0 : c0 <> "0"%char).
  { destruct Hz as [E|E]; [|exact E]. exfalso. change (lit "0") with (["0"]%char) in E.
    apply (f_equal (@List.length ascii)) in E. cbn in E. rewrite app_length in E. cbn in E. lia. }
  assert (Hv : 1 <= value (c0 :: s)).
  { cbn in H1. apply andb_true_iff in H1 as [Hc0 Hs]. apply value_first; assumption. }
  assert (Hi := IH (conj H1 (or_intror Hn0))).
  assert (L : Z.log2 (value (c0 :: s)) + 1 <= Z.log2 (10 * value (c0 :: s) + digit_value c)).
  { replace (Z.log2 (value (c0 :: s)) + 1) with (Z.log2 (2 * value (c0 :: s))) by (rewrite Z.log2_double; lia).
    apply Z.log2_le_mono. lia. }
  assert (0 <= Z.log2 (value (c0 :: s))) by apply Z.log2_nonneg. lia.
Qed.
Lemma int_float_small n : 0 <= n < 2 ^ 53 -> int_float n 0 = Ok n.
Proof.
  intros Hn. unfold int_float. destruct (Z.eqb_spec n 0) as [->|Hz]; [reflexivity|].
  change (10 ^ 0) with 1. change (Z.log2 1) with 0. cbv zeta.
  assert (HL : 0 <= Z.log2 n <= 52).
  { split; [apply Z.log2_nonneg|]. assert (Z.log2 n < 53); [|lia]. apply Z.log2_lt_pow2; lia. }
  destruct (Z.log2_spec n ltac:(lia)) as [H1 H2]. set (L := Z.log2 n) in *.
  destruct (Z.leb_spec 0 (L - 0 - 53)); [lia|].
  assert (EP : n * 2 ^ (- (L - 0 - 53)) < 1 * 2 ^ 53 <-> False).
  { split; [|tauto]. intros C. assert (H3 : 2 ^ L * 2 ^ (53 - L) <= n * 2 ^ (53 - L)).
    { apply Z.mul_le_mono_nonneg_r; [apply Z.pow_nonneg; lia|exact H1]. }
    rewrite <- Z.pow_add_r in H3 by lia. replace (L + (53 - L)) with 53 in H3 by lia.
    replace (- (L - 0 - 53)) with (53 - L) in C by lia. lia. }
  destruct (Z.ltb_spec (n * 2 ^ (- (L - 0 - 53))) (1 * 2 ^ 53)) as [C|_]; [exfalso; apply EP; exact C|].
  assert (RD : forall a, round_div a 1 = a).
  { intros a. unfold round_div. rewrite Z.div_1_r, Z.mod_1_r. reflexivity. }
  destruct (Z.leb_spec 0 (L - 0 - 53 + 1)) as [Hp|Hp].
  - replace (L - 0 - 53 + 1) with 0 by lia. change (1 * 2 ^ 0) with 1. rewrite RD.
    change (2 ^ 0) with 1. rewrite Z.mul_1_r.
    destruct (Z.leb_spec (2 ^ 1024) n); [|reflexivity]. exfalso. assert (2 ^ 53 <= 2 ^ 1024) by (apply Z.pow_le_mono_r; lia). lia.
  - rewrite RD, Z.div_mul by (apply Z.pow_nonzero; lia).
    destruct (Z.leb_spec (2 ^ 1024) n); [|reflexivity]. exfalso. assert (2 ^ 53 <= 2 ^ 1024) by (apply Z.pow_le_mono_r; lia). lia.
Qed.
Lemma digits_no_dot s : forallb is_digit s = true -> drop_dot s = s /\ places s = 0.
Proof.
  induction s as [|c s IH]; cbn; [auto|]. intros H. apply andb_true_iff in H as [Hc Hs]. destruct (IH Hs) as [E1 E2].
  destruct (ascii_dec c "."%char) as [->|]; [discriminate|]. rewrite E1. auto.
Qed.
(** The names that normalization leaves alone: those that do not look like a number, and
    numerals without superfluous zeros that a double holds. *)
Definition stable_name (s : str) : Prop :=
  isdigit (drop_dot s) = false \/ (numeral s /\ value s < 2 ^ 53).
Lemma normalize_stable s : stable_name s -> normalize_if_number s = Ok s.
Proof.
  intros [H|(H & Hv)]; unfold normalize_if_number; [rewrite H; reflexivity|].
  assert (Hd : forallb is_digit s = true) by (destruct H as [H _]; destruct s; [discriminate|exact H]).
  destruct (digits_no_dot s Hd) as [E1 E2]. rewrite E1, E2, (proj1 H). rewrite int_float_small.
  - cbn [bind]. unfold show. rewrite show_go_value, app_nil_r; [reflexivity|exact H|apply numeral_length, H].
  - split; [apply value_nonneg, Hd|exact Hv].
Qed.
Definition type_text (t : edge_type) : str :=
  match t with IFS => lit "IFS" | FFS => lit "FFS" | SS => lit "SS" | FF => lit "FF" | FS => lit "FS" end.
Lemma edge_type_text t : edge_type_of (type_text t) = Ok t /\ element (type_text t).
Proof. destruct t; (split; [reflexivity|]); unfold element, no_comma; cbn; intuition discriminate. Qed.

(** ** Numbers of works *)
Lemma num_nth names i d : NoDup names -> (i < List.length names)%nat -> num names (nth i names d) = i.
Proof.
  revert i. induction names as [|x names IH]; intros i Hnd Hi; cbn in *; [lia|]. inversion Hnd as [|? ? Hx Hnd']; subst.
  destruct i as [|i]; [rewrite str_eqb_refl; reflexivity|].
  destruct (str_eqb x (nth i names d)) eqn:E.
  - apply str_eqb_true in E. exfalso. apply Hx. rewrite E. apply nth_In. lia.
  - rewrite IH by (auto; lia). reflexivity.
Qed.
Lemma num_lt names s : In s names <-> (num names s < List.length names)%nat.
Proof.
  induction names as [|x names IH]; cbn; [split; [intros []|lia]|].
  destruct (str_eqb x s) eqn:E.
  - apply str_eqb_true in E. split; [lia|auto].
  - apply str_eqb_false in E. rewrite <- Nat.succ_lt_mono, <- IH. split; [intros [?|?]; [congruence|auto]|auto].
Qed.
Lemma num_inj names a b : In a names -> num names a = num names b -> a = b.
Proof.
  induction names as [|x names IH]; cbn; [intros []|]. intros Ha E.
  destruct (str_eqb x a) eqn:E1, (str_eqb x b) eqn:E2; try discriminate.
  - apply str_eqb_true in E1, E2. congruence.
  - apply IH; [|congruence]. destruct Ha as [->|Ha]; [rewrite str_eqb_refl in E1; discriminate|exact Ha].
Qed.
Lemma num_names names : NoDup names -> map (num names) names = seq 0 (List.length names).
Proof.
  intros Hnd. apply (nth_ext _ _ 0%nat 0%nat); [rewrite map_length, seq_length; reflexivity|].
  intros i Hi. rewrite map_length in Hi. rewrite seq_nth by exact Hi.
  rewrite (nth_indep _ _ (num names [])) by (rewrite map_length; exact Hi).
  rewrite map_nth. rewrite num_nth by assumption. lia.
Qed.
