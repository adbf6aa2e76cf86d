(** C120: indexes, reversed dictionaries and mappings of names. *)
From Coq Require Import List Bool Arith Lia.
From Verif Require Import NameMapModel.
Import ListNotations.

Lemma lookup_assign d k v k' : lookup (assign d k v) k' = if Nat.eqb k' k then Some v else lookup d k'.
Proof.
  induction d as [|[a b] d IH]; cbn; [reflexivity|]. destruct (Nat.eqb_spec k a) as [<-|N]; cbn.
  - destruct (Nat.eqb k' k); reflexivity.
  - rewrite IH. destruct (Nat.eqb_spec k' a) as [->|]; [|reflexivity]. destruct (Nat.eqb_spec a k); [congruence|reflexivity].
Qed.
Lemma assign_keys d k v : NoDup (map fst d) -> NoDup (map fst (assign d k v)) /\ forall x, In x (map fst (assign d k v)) <-> x = k \/ In x (map fst d).
Proof.
  induction d as [|[a b] d IH]; cbn; intros N; [split; [constructor; [intros []|constructor]|intros x; split; [intros [->|[]]; auto|intros [->|[]]; auto]]|].
  inversion N as [|a0 l N1 N2]; subst. destruct (IH N2) as [A B]. destruct (Nat.eqb_spec k a) as [->|Q]; cbn.
  - split; [exact N|]. intros x. split; [intros [->|H]; auto|intros [->|[->|H]]; auto].
  - split; [constructor; [intros H; apply B in H as [H|H]; congruence|exact A]|]. intros x. rewrite B. split; [intros [->|[->|H]]; auto|intros [->|[->|H]]; auto].
Qed.
Lemma lookup_in d k v : NoDup (map fst d) -> lookup d k = Some v <-> In (k, v) d.
Proof.
  induction d as [|[a b] d IH]; cbn; intros N; [split; [discriminate|intros []]|]. inversion N as [|a0 l N1 N2]; subst. destruct (Nat.eqb_spec k a) as [->|Q].
  - split; [intros E; injection E as ->; auto|]. intros [E|H]; [congruence|]. exfalso. apply N1. apply (in_map fst) in H. exact H.
  - rewrite (IH N2). split; [auto|intros [E|H]; [congruence|exact H]].
Qed.

(** ** C120 *)
(** In an index each key is listed once, and it leads to the value of the last item that has it. *)
Theorem index_exact T (items : list T) key value : NoDup (map fst (build_index items key value)) /\
  (forall k, lookup (build_index items key value) k = None <-> forall x, In x items -> key x <> k) /\
  (forall k v, lookup (build_index items key value) k = Some v <->
    exists before x after, items = before ++ x :: after /\ key x = k /\ value x = v /\ forall y, In y after -> key y <> k).
Proof.
  unfold build_index. induction items as [|z items IH] using rev_ind; [cbn; split; [constructor|]; split; [intros k; split; [intros _ x []|reflexivity]|intros k v; split; [discriminate|]; intros ([|] & x & after & E & _); discriminate E]|].
  rewrite fold_left_app. cbn [fold_left]. destruct IH as (A & B & C). split; [apply assign_keys, A|]. split.
  - intros k. rewrite lookup_assign. destruct (Nat.eqb_spec k (key z)) as [->|Q].
    + split; [discriminate|]. intros H. exfalso. apply (H z); [apply in_or_app; right; left; reflexivity|reflexivity].
    + rewrite B. split; [intros H x Hx; apply in_app_or in Hx as [Hx|[<-|[]]]; [auto|congruence]|intros H x Hx; apply H, in_or_app; left; exact Hx].
  - intros k v. rewrite lookup_assign. destruct (Nat.eqb_spec k (key z)) as [->|Q].
    + split; [intros E; injection E as <-; exists items, z, []; split; [reflexivity|]; split; [reflexivity|]; split; [reflexivity|intros y []]|].
      intros (before & x & after & E & E1 & E2 & H). destruct after as [|y after _] using rev_ind.
      * apply app_inj_tail in E as [_ ->]. rewrite E2. reflexivity.
      * change (items ++ [z] = before ++ (x :: after) ++ [y]) in E. rewrite app_assoc in E. apply app_inj_tail in E as [_ ->]. exfalso. apply (H y); [apply in_or_app; right; left; reflexivity|reflexivity].
    + rewrite C. split.
      * intros (before & x & after & -> & E1 & E2 & H). exists before, x, (after ++ [z]). split; [rewrite <- app_assoc; reflexivity|]. split; [exact E1|]. split; [exact E2|]. intros y Hy. apply in_app_or in Hy as [Hy|[<-|[]]]; [auto|congruence].
      * intros (before & x & after & E & E1 & E2 & H). destruct after as [|y after _] using rev_ind.
        -- apply app_inj_tail in E as [_ ->]. congruence.
        -- change (items ++ [z] = before ++ (x :: after) ++ [y]) in E. rewrite app_assoc in E. apply app_inj_tail in E as [-> _]. exists before, x, after. split; [reflexivity|]. split; [exact E1|]. split; [exact E2|]. intros w Hw. apply H, in_or_app. left. exact Hw.
Qed.
Print Assumptions index_exact.

Lemma index_distinct T (items : list T) key value : NoDup (map key items) -> forall k v, lookup (build_index items key value) k = Some v <-> exists x, In x items /\ key x = k /\ value x = v.
Proof.
  intros N k v. destruct (index_exact T items key value) as (_ & _ & C). rewrite C. split.
  - intros (b & x & a & -> & E1 & E2 & _). exists x. split; [apply in_or_app; right; left; reflexivity|auto].
  - intros (x & Hx & E1 & E2). apply in_split in Hx as (b & a & ->). exists b, x, a. split; [reflexivity|]. split; [exact E1|]. split; [exact E2|]. intros y Hy Ey. rewrite map_app in N. apply NoDup_remove_2 in N. apply N. apply in_or_app. right. rewrite E1, <- Ey. apply in_map, Hy.
Qed.

(** Reversing a dictionary swaps its pairs, if and only if no value is there twice. *)
Theorem reverse_exact (d : dict) : NoDup (map fst d) ->
  ((forall k v, lookup (reverse_dictionary d) v = Some k <-> lookup d k = Some v) <-> NoDup (map snd d)).
Proof.
  intros N. split.
  - intros H. assert (U : forall k k' v, In (k, v) d -> In (k', v) d -> k = k') by (intros k k' v H1 H2; apply (lookup_in d k v N) in H1; apply (lookup_in d k' v N) in H2; apply H in H1; apply H in H2; congruence).
    clear H. induction d as [|[a b] d IH]; cbn in *; [constructor|]. inversion N as [|a0 l N1 N2]; subst. constructor; [|apply IH; [exact N2|intros k k' v H1 H2; apply (U k k' v); auto]].
    intros H. apply in_map_iff in H as ([k v] & E & H). cbn in E. subst v. assert (a = k) by (apply (U a k b); auto). subst k. apply N1. apply (in_map fst) in H. exact H.
  - intros Ns k v. unfold reverse_dictionary. rewrite (index_distinct _ d snd fst Ns), (lookup_in d k v N). split; [intros ([a b] & H & E1 & E2); cbn in *; congruence|intros H; exists (k, v); auto].
Qed.
Print Assumptions reverse_exact.

(** [first] finds the first element that meets the condition. *)
Theorem first_exact T (l : list T) c : (first l c = None <-> forall x, In x l -> c x = false) /\
  forall x, first l c = Some x <-> exists before after, l = before ++ x :: after /\ c x = true /\ forall y, In y before -> c y = false.
Proof.
  induction l as [|z l [IH1 IH2]]; cbn.
  - split; [split; [intros _ x []|reflexivity]|]. intros x. split; [discriminate|intros ([|] & a & E & _); discriminate E].
  - destruct (c z) eqn:E.
    + split; [split; [discriminate|intros H; specialize (H z (or_introl eq_refl)); congruence]|]. intros x. split.
      * intros Q. injection Q as <-. exists [], l. split; [reflexivity|]. split; [exact E|intros y []].
      * intros ([|w b] & a & Q & Cx & H); cbn in Q; [injection Q as -> _; reflexivity|]. injection Q as <- _. specialize (H z (in_eq _ _)). congruence.
    + split; [rewrite IH1; split; [intros H x [<-|Hx]; auto|auto]|]. intros x. rewrite IH2. split.
      * intros (b & a & -> & Cx & H). exists (z :: b), a. split; [reflexivity|]. split; [exact Cx|]. intros y [<-|Hy]; auto.
      * intros ([|w b] & a & Q & Cx & H); cbn in Q; [injection Q as -> _; congruence|]. injection Q as <- ->. exists b, a. split; [reflexivity|]. split; [exact Cx|]. intros y Hy. apply H. right. exact Hy.
Qed.
Print Assumptions first_exact.

(** With distinct names in both columns, the inverse mapping takes each name back, except exactly the
    names that are not in the first column but are in the second. *)
Theorem names_there_and_back rows : NoDup (map fst rows) -> NoDup (map snd rows) -> forall name,
  getitem (get_inverse_task_name_mapping rows) (getitem (get_task_name_unique_mapping rows) name) = name <->
  (In name (map fst rows) \/ ~ In name (map snd rows)).
Proof.
  intros N1 N2 name. unfold getitem, get_inverse_task_name_mapping, get_task_name_unique_mapping.
  assert (I1 := index_distinct _ rows fst snd N1). assert (I2 := index_distinct _ rows snd fst N2).
  destruct (lookup (build_index rows fst snd) name) as [u|] eqn:E.
  - apply I1 in E as (x & Hx & Ex & Eu). assert (L : lookup (build_index rows snd fst) u = Some name) by (apply I2; exists x; auto). rewrite L. split; [intros _; left; rewrite <- Ex; apply in_map, Hx|reflexivity].
  - assert (Nin : ~ In name (map fst rows)). { intros H. apply in_map_iff in H as (x & Ex & Hx). assert (L : lookup (build_index rows fst snd) name = Some (snd x)) by (apply I1; exists x; auto). congruence. }
    destruct (lookup (build_index rows snd fst) name) as [o|] eqn:E2.
    + apply I2 in E2 as (x & Hx & Ex & Eo). split.
      * intros ->. exfalso. apply Nin. rewrite <- Eo. apply in_map, Hx.
      * intros [H|H]; [contradiction|]. exfalso. apply H. rewrite <- Ex. apply in_map, Hx.
    + split; [|reflexivity]. intros _. right. intros H. apply in_map_iff in H as (x & Ex & Hx). assert (L : lookup (build_index rows snd fst) name = Some (fst x)) by (apply I2; exists x; auto). congruence.
Qed.
Print Assumptions names_there_and_back.

(** Finding: a unique name that stands for two names goes back to the last one. *)
Theorem shared_unique_name a b u rows : a <> b ->
  getitem (get_inverse_task_name_mapping (rows ++ [(a, u); (b, u)])) (getitem (get_task_name_unique_mapping (rows ++ [(a, u); (b, u)])) a) = b.
Proof.
  intros Nab. unfold getitem, get_inverse_task_name_mapping, get_task_name_unique_mapping, build_index. rewrite !fold_left_app. cbn [fold_left fst snd]. rewrite !lookup_assign, Nat.eqb_refl.
  destruct (Nat.eqb_spec a b); [contradiction|]. rewrite ?Nat.eqb_refl. cbv beta iota. rewrite ?lookup_assign, ?Nat.eqb_refl. reflexivity.
Qed.
Print Assumptions shared_unique_name.

Example back_example : map (fun n => getitem (get_inverse_task_name_mapping [(1, 10); (2, 20)]) (getitem (get_task_name_unique_mapping [(1, 10); (2, 20)]) n)) [1; 2; 3; 10] = [1; 2; 3; 1].
Proof. reflexivity. Qed.
Example reverse_example : reverse_dictionary [(1, 10); (2, 20)] = [(10, 1); (20, 2)] /\ reverse_dictionary [(1, 10); (2, 10)] = [(10, 2)].
Proof. split; reflexivity. Qed.
