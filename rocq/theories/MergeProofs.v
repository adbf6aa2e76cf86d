(** Lemmas about splitting ids at the stage separator and about merging rows. *)
From Coq Require Import ZArith QArith List Bool Ascii String DecimalString DecimalNat Permutation Sorted Lia.
From Verif Require Import StableSort MergeModel MergeSpec.
Import ListNotations.
Local Open Scope Z_scope.

Lemma strip_spec : forall p s r, strip p s = Some r <-> s = p ++ r.
Proof.
  induction p as [|a p IH]; intros s r; simpl.
  - split; [intros [= ->]; reflexivity|intros ->; reflexivity].
  - destruct s as [|b s]; [split; discriminate|]. destruct (ascii_dec a b) as [<-|N].
    + rewrite IH. split; [intros ->; reflexivity|intros [= ->]; reflexivity].
    + split; [discriminate|intros [= -> _]; contradiction].
Qed.
Lemma startswith_spec s p : startswith s p = true <-> exists r, s = p ++ r.
Proof.
  unfold startswith. destruct (strip p s) as [r|] eqn:E.
  - apply strip_spec in E. split; [eauto|reflexivity].
  - split; [discriminate|]. intros [r H]. apply strip_spec in H. congruence.
Qed.
Lemma str_eqb_spec a b : str_eqb a b = true <-> a = b.
Proof. unfold str_eqb. destruct (list_eq_dec ascii_dec a b); split; auto; discriminate. Qed.

Lemma clean_tl c a : clean (c :: a) -> clean a.
Proof. intros H x y E. apply (H (c :: x) y). cbn [app]. rewrite E. reflexivity. Qed.
Lemma clean_strip c a rest : clean (c :: a) -> strip SEP ((c :: a) ++ SEP ++ rest) = None.
Proof.
  intros H. destruct (strip SEP ((c :: a) ++ SEP ++ rest)) as [r|] eqn:E; [exfalso|reflexivity].
  apply strip_spec in E. apply (H [] (skipn (List.length SEP) ((c :: a) ++ removelast SEP))). cbn [app].
  assert (E3 : firstn (List.length SEP) ((c :: a) ++ removelast SEP) = SEP).
  { assert (E2 : firstn (List.length SEP) (((c :: a) ++ removelast SEP) ++ ("_"%char :: rest)) = SEP).
    { rewrite <- app_assoc. change (removelast SEP ++ "_"%char :: rest) with (SEP ++ rest). rewrite E. reflexivity. }
    rewrite firstn_app in E2. replace (List.length SEP - List.length ((c :: a) ++ removelast SEP))%nat with O in E2.
    - rewrite firstn_O, app_nil_r in E2. exact E2.
    - rewrite app_length. change (List.length (removelast SEP)) with 6%nat. change (List.length SEP) with 7%nat. cbn [List.length]. lia. }
  rewrite <- E3 at 2. symmetry. apply firstn_skipn.
Qed.
Lemma split_clean : forall a cur rest, clean a -> split_go 0 (a ++ SEP ++ rest) cur = (rev cur ++ a) :: split rest.
Proof.
  induction a as [|c a IH]; intros cur rest H.
  - rewrite app_nil_r. change ([] ++ SEP ++ rest) with ("_"%char :: removelast (tl SEP) ++ ["_"%char] ++ rest).
    cbn [split_go]. replace (strip SEP _) with (Some rest) by reflexivity. reflexivity.
  - change ((c :: a) ++ SEP ++ rest) with (c :: a ++ SEP ++ rest) at 1. cbn [split_go].
    change (c :: a ++ SEP ++ rest) with ((c :: a) ++ SEP ++ rest). rewrite (clean_strip c a rest H).
    rewrite IH by exact (clean_tl _ _ H). simpl. rewrite <- app_assoc. reflexivity.
Qed.
Lemma clean_no_sep a : clean a -> forall x y, a <> x ++ SEP ++ y.
Proof. intros H x y ->. apply (H x (y ++ removelast SEP)). rewrite <- !app_assoc. reflexivity. Qed.
Lemma split_none : forall a cur, (forall x y, a <> x ++ SEP ++ y) -> split_go 0 a cur = [rev cur ++ a].
Proof.
  induction a as [|c a IH]; intros cur H.
  - simpl. rewrite app_nil_r. reflexivity.
  - cbn [split_go]. destruct (strip SEP (c :: a)) as [r|] eqn:E.
    + apply strip_spec in E. exfalso. apply (H [] r). exact E.
    + rewrite IH; [simpl; rewrite <- app_assoc; reflexivity|]. intros x y ->. apply (H (c :: x) y). reflexivity.
Qed.
Lemma split_app a rest : clean a -> split (a ++ SEP ++ rest) = a :: split rest.
Proof. intros H. unfold split at 1. rewrite split_clean by exact H. reflexivity. Qed.
Lemma split_whole a : clean a -> split a = [a].
Proof. intros H. unfold split. rewrite split_none; [reflexivity|]. apply clean_no_sep, H. Qed.

(** ** Digits *)
Definition is_digit (c : ascii) : Prop := c <> "_"%char.
Lemma uint_digits : forall d, Forall is_digit (of_string (NilEmpty.string_of_uint d)).
Proof. induction d; simpl; repeat constructor; try exact IHd; unfold is_digit; discriminate. Qed.
Lemma digits_plain n : Forall is_digit (digits n).
Proof.
  unfold digits, NilZero.string_of_uint. destruct (Nat.to_uint n) eqn:E; try (rewrite <- E; apply uint_digits).
  repeat constructor. discriminate.
Qed.
Lemma plain_clean a : Forall is_digit a -> clean a.
Proof.
  intros H. induction H as [|c a Hc H IH]; intros x y E.
  - assert (L := f_equal (@List.length ascii) E). rewrite !app_length in L. simpl in L. lia.
  - destruct x as [|b x]; simpl in E.
    + injection E as E _. apply Hc. exact E.
    + injection E as _ E. apply (IH x y E).
Qed.
Lemma digits_clean n : clean (digits n).
Proof. apply plain_clean, digits_plain. Qed.
Lemma parse_digits n : parse (digits n) = Some (Z.of_nat n).
Proof.
  unfold parse, digits, of_string. rewrite string_of_list_ascii_of_string, NilZero.usu.
  - simpl. rewrite Unsigned.of_to. reflexivity.
  - intros E. assert (F := Unsigned.of_to n). rewrite E in F. subst n. discriminate E.
Qed.

Lemma first_part_stage a i : clean a -> first_part (stage_id a i) = a.
Proof. intros H. unfold first_part, stage_id. rewrite split_app by exact H. reflexivity. Qed.
Lemma first_part_clean a : clean a -> first_part a = a.
Proof. intros H. unfold first_part. rewrite split_whole by exact H. reflexivity. Qed.

(** ** The rows of a task *)
Lemma of_task_spec b b' r : clean b -> clean b' -> row_of_task b' r -> of_task b r = str_eqb b' b.
Proof.
  intros Hb Hb' [E|[i E]]; unfold of_task; rewrite E.
  - replace (startswith b' (b ++ SEP)) with false; [reflexivity|]. symmetry. destruct (startswith b' (b ++ SEP)) eqn:S; [exfalso|reflexivity].
    apply startswith_spec in S as [r0 S]. rewrite <- app_assoc in S. exact (clean_no_sep b' Hb' _ _ S).
  - destruct (str_eqb b' b) eqn:Q.
    + apply str_eqb_spec in Q. subst b'. apply orb_true_iff. left. apply startswith_spec. exists (digits i). unfold stage_id. rewrite <- app_assoc. reflexivity.
    + apply orb_false_iff. split.
      * destruct (startswith (stage_id b' i) (b ++ SEP)) eqn:S; [exfalso|reflexivity]. apply startswith_spec in S as [r0 S].
        rewrite <- app_assoc in S. assert (F := first_part_stage b' i Hb'). rewrite S in F. unfold first_part in F. rewrite split_app in F by exact Hb. simpl in F. subst b'.
        assert (X : str_eqb b b = true) by (apply str_eqb_spec; reflexivity). congruence.
      * destruct (str_eqb (stage_id b' i) b) eqn:S; [exfalso|reflexivity]. apply str_eqb_spec in S.
        apply (clean_no_sep b Hb b' (digits i)). rewrite <- S. reflexivity.
Qed.
Lemma first_part_task b r : clean b -> row_of_task b r -> first_part (rw_id r) = b.
Proof. intros Hb [E|[i E]]; rewrite E; [apply first_part_clean|apply first_part_stage]; exact Hb. Qed.

Section Merge.
  Variable sort : (row -> Z) -> list row -> list row.
  Hypothesis Hsort : forall key l, Permutation (sort key l) l /\ StronglySorted (fun a b => key a <= key b) (sort key l).
  Lemma last_in {A} (l : list A) d : l <> [] -> In (last l d) l.
  Proof. intros H. rewrite (app_removelast_last d H) at 2. apply in_or_app. right. left. reflexivity. Qed.
  Lemma sorted_last (l : list row) key d : l <> [] -> StronglySorted (fun a b => key a <= key b) l -> forall x, In x l -> key x <= key (last l d).
  Proof.
    intros Hne H. induction H as [|y l Hs IH Hf]; intros x Hx; [destruct Hx|]. destruct l as [|z l].
    - destruct Hx as [<-|[]]. simpl. lia.
    - assert (Hin : In (last (z :: l) d) (z :: l)) by (apply last_in; discriminate).
      change (last (y :: z :: l) d) with (last (z :: l) d). destruct Hx as [<-|Hx]; [|apply IH; [discriminate|exact Hx]].
      rewrite Forall_forall in Hf. apply Hf, Hin.
  Qed.
  Lemma merge_stages l : l <> [] -> ((1 < List.length l)%nat -> forall x, In x l -> parses x = true) ->
    exists r, merge_split_stages sort l = Some r /\ merged l r.
  Proof.
    intros Hne Hp. destruct l as [|x [|y l]]; [contradiction| |].
    - exists x. split; [reflexivity|]. constructor.
      + intros z [= <-]. reflexivity.
      + simpl. ring.
      + intros z l [= <- <-]. auto.
      + intros z l E. destruct l as [|a [|b l]]; [injection E as <-; reflexivity|discriminate|discriminate].
      + simpl. lia.
      + simpl. lia.
    - unfold merge_split_stages. replace (forallb parses (x :: y :: l)) with true.
      2: { symmetry. apply forallb_forall. apply Hp. simpl. lia. }
      eexists. split; [reflexivity|]. set (rows := x :: y :: l) in *.
      destruct (Hsort stage_num rows) as [P S].
      assert (Hsn : sort stage_num rows <> []) by (intros E; rewrite E in P; apply Permutation_nil in P; discriminate).
      constructor; cbn [rw_id rw_name rw_granular rw_volume rw_cost rw_start rw_finish rw_duration rw_workers rw_object].
      + intros z E. discriminate.
      + reflexivity.
      + intros z l' E. injection E as <- _. auto.
      + intros z l' E. rewrite E, last_last. reflexivity.
      + reflexivity.
      + intros _. exists (last (sort stage_num rows) x). split; [apply (Permutation_in _ P), last_in, Hsn|].
        split; [|auto]. intros z Hz. apply sorted_last; [exact Hsn|exact S|]. apply (Permutation_in _ (Permutation_sym P)), Hz.
  Qed.
  Variable listing : list str -> list str.
  Hypothesis Hlist : forall l, Permutation (listing l) l.
  Variable table_sort : list row -> list row.
  Hypothesis Htable : forall l, Permutation (table_sort l) l /\ StronglySorted (fun a b => rw_start a <= rw_start b) (table_sort l).
  Lemma merge_all_spec rows work ids :
    (forall r, In r rows -> clean (work r) /\ row_of_task (work r) r) ->
    (forall r, In r rows -> (1 < List.length (filter (fun x => str_eqb (work x) (work r)) rows))%nat -> parses r = true) ->
    (forall i, In i ids -> exists r, In r rows /\ work r = i) ->
    exists l, merge_all sort rows ids = Some l /\
      Forall2 (fun i r => merge_split_stages sort (filter (fun x => str_eqb (work x) i) rows) = Some r /\ merged (filter (fun x => str_eqb (work x) i) rows) r) ids l.
  Proof.
    intros Hw Hp. induction ids as [|i ids IH]; intros Hi.
    - exists []. split; [reflexivity|constructor].
    - destruct IH as (l & E & F); [intros j Hj; apply Hi; right; exact Hj|].
      destruct (Hi i (or_introl eq_refl)) as (r0 & R0 & W0).
      assert (Ef : filter (of_task i) rows = filter (fun x => str_eqb (work x) i) rows).
      { apply filter_ext_in. intros x Hx. destruct (Hw x Hx) as [C T]. apply of_task_spec; [|exact C|exact T]. subst i. apply Hw, R0. }
      destruct (merge_stages (filter (fun x => str_eqb (work x) i) rows)) as (r & Er & M).
      + intros E0. assert (X : In r0 (filter (fun x => str_eqb (work x) i) rows)); [|rewrite E0 in X; destruct X].
        apply filter_In. split; [exact R0|]. apply str_eqb_spec. exact W0.
      + intros Hl x Hx. apply filter_In in Hx as [Hx Wx]. apply str_eqb_spec in Wx. apply Hp; [exact Hx|]. rewrite Wx. exact Hl.
      + exists (r :: l). cbn [merge_all]. rewrite Ef, Er, E. split; [reflexivity|]. constructor; auto.
  Qed.
  Lemma forall2_perm {A B} (R : A -> B -> Prop) ids l l' : Forall2 R ids l -> Permutation l l' -> exists ids', Permutation ids ids' /\ Forall2 R ids' l'.
  Proof.
    intros F P. revert ids F. induction P as [|x l l' P IH|x y l|l l' l'' P1 IH1 P2 IH2]; intros ids F.
    - exists ids. auto.
    - inversion F as [|i ? ids0 ? R1 F1]; subst. destruct (IH _ F1) as (ids' & P' & F'). exists (i :: ids'). auto.
    - inversion F as [|i ? ids0 ? R1 F1]; subst. inversion F1 as [|j ? ids1 ? R2 F2]; subst. exists (j :: i :: ids1). split; [apply perm_swap|auto].
    - destruct (IH1 _ F) as (i1 & Q1 & F1). destruct (IH2 _ F1) as (i2 & Q2 & F2). exists i2. split; [eapply Permutation_trans; eassumption|exact F2].
  Qed.
  Lemma fix_split_spec rows work :
    (forall r, In r rows -> clean (work r) /\ row_of_task (work r) r) ->
    (forall r, In r rows -> (1 < List.length (filter (fun x => str_eqb (work x) (work r)) rows))%nat -> parses r = true) ->
    exists out ids, fix_split_tasks sort listing table_sort rows = Some out /\
      NoDup ids /\ (forall i, In i ids <-> exists r, In r rows /\ work r = i) /\
      StronglySorted (fun a b => rw_start a <= rw_start b) out /\
      Forall2 (fun i r => merge_split_stages sort (filter (fun x => str_eqb (work x) i) rows) = Some r /\ merged (filter (fun x => str_eqb (work x) i) rows) r) ids out.
  Proof.
    intros Hw Hp. unfold fix_split_tasks.
    assert (Em : map (fun r => first_part (rw_id r)) rows = map work rows).
    { apply map_ext_in. intros r Hr. destruct (Hw r Hr) as [C T]. apply first_part_task; assumption. }
    assert (Hu : forall i, In i (unique_ids listing rows) <-> exists r, In r rows /\ work r = i).
    { intros i. unfold unique_ids. rewrite Em. split.
      - intros Hi. apply (Permutation_in _ (Hlist _)) in Hi. apply nodup_In, in_map_iff in Hi as (r & <- & Hr). eauto.
      - intros (r & Hr & <-). apply (Permutation_in _ (Permutation_sym (Hlist _))). apply nodup_In, in_map, Hr. }
    destruct (merge_all_spec rows work (unique_ids listing rows) Hw Hp ltac:(intros i Hi; apply Hu; exact Hi)) as (l & E & F).
    rewrite E. destruct (Htable l) as [P S]. destruct (forall2_perm _ _ _ (table_sort l) F (Permutation_sym P)) as (ids & Q & F').
    exists (table_sort l), ids. split; [reflexivity|]. split; [|split; [|split; [exact S|exact F']]].
    - eapply Permutation_NoDup; [exact Q|]. unfold unique_ids. eapply Permutation_NoDup; [apply Permutation_sym, Hlist|apply NoDup_nodup].
    - intros i. rewrite <- Hu. split; apply Permutation_in; [apply Permutation_sym|]; exact Q.
  Qed.
End Merge.

(** ** Names of stages *)
Lemma granular_split name k : clean name -> split (granular_after name k) = name :: map digits (seq 0 k).
Proof.
  intros H.
  assert (G : forall k t, granular_after name k ++ t = name ++ List.concat (map (fun i => SEP ++ digits i) (seq 0 k)) ++ t).
  { induction k0 as [|j IH]; intros t; [reflexivity|]. cbn [granular_after]. rewrite seq_S, map_app, concat_app, <- !app_assoc, IH.
    cbn [map List.concat]. rewrite app_nil_r, <- !app_assoc. reflexivity. }
  assert (T : forall l a, clean a -> split (a ++ List.concat (map (fun i => SEP ++ digits i) l)) = a :: map digits l).
  { induction l as [|i l IH]; intros a Ha; cbn [map List.concat].
    - rewrite app_nil_r. apply split_whole, Ha.
    - rewrite <- app_assoc, split_app by exact Ha. f_equal. apply IH, digits_clean. }
  specialize (G k []). rewrite !app_nil_r in G. rewrite G. apply T, H.
Qed.
Lemma granular_num name k : clean name -> get_stage_num (granular_after name k) = Some (Z.of_nat k - 1).
Proof.
  intros H. unfold get_stage_num. rewrite granular_split by exact H. destruct k as [|k]; [reflexivity|].
  assert (E : map digits (seq 0 (S k)) = map digits (seq 0 k) ++ [digits k]) by (rewrite seq_S, map_app; reflexivity).
  assert (L : last (map digits (seq 0 (S k))) [] = digits k) by (rewrite E; apply last_last).
  destruct (map digits (seq 0 (S k))) as [|x l]; [destruct (map digits (seq 0 k)); discriminate|].
  transitivity (parse (digits k)); [f_equal; exact L|]. rewrite parse_digits. f_equal. lia.
Qed.
Lemma granular_first name k : clean name -> first_part (granular_after name k) = name.
Proof. intros H. unfold first_part. rewrite granular_split by exact H. reflexivity. Qed.
