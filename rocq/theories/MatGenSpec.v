(** Specification for C116: what setting materials means. *)
From Coq Require Import ZArith List Bool Permutation.
From Verif Require Import MatGenModel.
Import ListNotations.
Local Open Scope Z_scope.

(** What the arguments ask for: names, and borders for their number at each work. *)
Definition asked (names : option (list nat)) (bottom top : option nat) (l : list nat) (b t : nat) : Prop :=
  match names with
  | None => l = six_names /\ b = 2%nat /\ t = 6%nat
  | Some l' => l = l' /\ (bottom = Some b \/ bottom = None /\ b = (length l' / 2)%nat) /\ (top = Some t \/ top = None /\ t = length l')
  end.
(** Draws in their ranges; a set in some order. *)
Record fair (count : nat -> nat -> nat -> nat) (pick : nat -> nat -> nat -> nat) (order : nat -> list nat -> list nat) (amount : nat -> nat -> Z) : Prop := {
  fr_count : forall n lo hi, (lo <= hi)%nat -> (lo <= count n lo hi <= hi)%nat;
  fr_pick : forall n j k, (0 < k)%nat -> (pick n j k < k)%nat;
  fr_order : forall n l, Permutation (order n l) l;
  fr_amount : forall n i, 52 <= amount n i <= 345 }.
(** The requirements of a work: distinct materials among the names, [t] at most, with amounts in the range. *)
Record proper (l : list nat) (t : nat) (reqs : list (nat * Z)) : Prop := {
  pr_once : NoDup (map fst reqs);
  pr_names : forall m c, In (m, c) reqs -> In m l /\ 52 <= c <= 345;
  pr_top : (length reqs <= t)%nat }.
