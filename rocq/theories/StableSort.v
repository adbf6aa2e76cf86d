(** Python's [sorted] with an integer key: a stable ascending sort. *)
From Coq Require Import ZArith List Bool Lia Permutation Sorted.
Import ListNotations.
Local Open Scope Z_scope.

Section Sort.
  Context {A : Type} (key : A -> Z).
  (** [x] goes before the first element whose key is larger than or equal to its own:
      the elements are inserted from the last to the first. *)
  Fixpoint insert (x : A) (l : list A) : list A :=
    match l with
    | [] => [x]
    | y :: r => if key x <=? key y then x :: l else y :: insert x r
    end.
  Fixpoint sort_by (l : list A) : list A :=
    match l with
    | [] => []
    | x :: r => insert x (sort_by r)
    end.

  Definition ascending (l : list A) : Prop := StronglySorted (fun x y => key x <= key y) l.

  Lemma insert_perm x l : Permutation (insert x l) (x :: l).
  Proof.
    induction l as [|y l IH]; simpl; [apply Permutation_refl|].
    destruct (key x <=? key y); [apply Permutation_refl|].
    eapply Permutation_trans; [apply perm_skip; exact IH|apply perm_swap].
  Qed.
  Lemma sort_perm l : Permutation (sort_by l) l.
  Proof.
    induction l as [|x l IH]; simpl; [constructor|].
    eapply Permutation_trans; [apply insert_perm|apply perm_skip; exact IH].
  Qed.
  Lemma insert_ascending x l : ascending l -> ascending (insert x l).
  Proof.
    intros H. induction H as [|y l Hl IH Hf]; simpl; [repeat constructor|].
    destruct (Z.leb_spec (key x) (key y)).
    - constructor; [constructor; assumption|]. constructor; [assumption|].
      eapply Forall_impl; [|exact Hf]. simpl. intros; lia.
    - constructor; [exact IH|]. apply Forall_forall. intros z Hz.
      apply (Permutation_in z (insert_perm x l)) in Hz. destruct Hz as [<-|Hz]; [lia|].
      rewrite Forall_forall in Hf. apply Hf. exact Hz.
  Qed.
  Lemma sort_ascending l : ascending (sort_by l).
  Proof. induction l; simpl; [constructor|apply insert_ascending; assumption]. Qed.

  (** Elements with the same key keep their order. *)
  Lemma insert_filter k x l : ascending l ->
    filter (fun y => key y =? k) (insert x l)
    = (if key x =? k then [x] else []) ++ filter (fun y => key y =? k) l.
  Proof.
    intros H. induction H as [|y l Hl IH Hf]; simpl; [destruct (key x =? k); reflexivity|].
    destruct (Z.leb_spec (key x) (key y)); simpl.
    - destruct (key x =? k); reflexivity.
    - rewrite IH. destruct (Z.eqb_spec (key x) k), (Z.eqb_spec (key y) k); simpl; try reflexivity. lia.
  Qed.
  Lemma sort_stable k l : filter (fun y => key y =? k) (sort_by l) = filter (fun y => key y =? k) l.
  Proof.
    induction l as [|x l IH]; simpl; [reflexivity|]. rewrite insert_filter by apply sort_ascending.
    rewrite IH. destruct (key x =? k); reflexivity.
  Qed.
  (** A sorted list is left alone. *)
  Lemma sort_sorted l : ascending l -> sort_by l = l.
  Proof.
    induction 1 as [|x l Hl IH Hf]; simpl; [reflexivity|]. rewrite IH. destruct l as [|y l]; [reflexivity|].
    simpl. inversion Hf; subst. destruct (Z.leb_spec (key x) (key y)); [reflexivity|lia].
  Qed.
End Sort.
