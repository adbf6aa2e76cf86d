(** Model of the first population of the genetic scheduler
    (sampo/scheduler/genetic/operators.py:262-337, generate_chromosomes) over chromosomes of
    any type. Simplification: the weights are natural numbers and the products
    [count * weight / sum] are exact (floats in the code). *)
From Coq Require Import List Bool Arith.
From Verif Require Import GeneticResModel.
Import ListNotations.

(** The kinds of individuals: the chromosome of a heuristic scheduler or one of a randomized
    topological or LFT scheduler. *)
Inductive origin := Heuristic (i : nat) | RandTopological | RandLft.

(** operators.py:306-307 *)
Definition count_for_specified (n m : nat) : nat :=
  let c := n / 3 / m in if Nat.ltb 0 c then c else 1.
(** math.ceil(a / b) *)
Definition ceil_div (a b : nat) : nat := (a + b - 1) / b.
(** operators.py:308-312: how often each heuristic is offered *)
Definition heuristic_counts (n : nat) (weights : list nat) : list nat :=
  let c := count_for_specified n (length weights) in
  map (fun w => ceil_div (c * w) (list_sum weights)) weights.
(** operators.py:315-316 *)
Definition topological_count (n specified : nat) : nat :=
  if Nat.ltb specified (n / 2) then n / 2 - specified else 1.
(** operators.py:319-320 *)
Definition lft_count (n specified topological : nat) : nat :=
  if Nat.ltb (topological + specified) n then n - topological - specified else 1.
(** the population that random.sample draws from: its keys repeated by the counts *)
Definition offered (n : nat) (weights : list nat) : list origin :=
  let counts := heuristic_counts n weights in
  let s := list_sum counts in
  let t := topological_count n s in
  concat (map (fun ic => repeat (Heuristic (fst ic)) (snd ic)) (combine (seq 0 (length counts)) counts))
  ++ repeat RandTopological t ++ repeat RandLft (lft_count n s t).

Section Population.
  Context {C : Type}.
  (** random.sample(population, k) *)
  Variable sample : list origin -> nat -> list origin.
  (** operators.py:281-294, randomized_init: the chromosome drawn for the [j]-th individual;
      [None] is an exception *)
  Variable topological_draw lft_draw : nat -> option C.

  (** operators.py:325-335 *)
  Definition chromosome_for (heuristics : list (option (C * nat))) (j : nat) (o : origin) : option C :=
    match o with
    | Heuristic i => match nth_error heuristics i with Some (Some (c, _)) => Some c | _ => None end
    | RandTopological => topological_draw j
    | RandLft => lft_draw j
    end.
  (** operators.py:301-337 without only_lft_initialization. [heuristics] are the values of
      init_chromosomes, a chromosome and its weight; [None] stands for a heuristic that
      found no contractor (utils.py:26-30). The result [None] is an exception: a
      ZeroDivisionError without heuristics or with weights 0, a TypeError for a heuristic
      that is [None], an exception of a draw. *)
  Definition first_population (n : nat) (heuristics : list (option (C * nat))) : option (list C) :=
    match sequence heuristics with
    | None => None
    | Some hs =>
        let weights := map snd hs in
        if Nat.eqb (length hs) 0 || Nat.eqb (list_sum weights) 0 then None
        else
          let types := sample (offered n weights) n in
          match sequence (map (fun jo => chromosome_for heuristics (fst jo) (snd jo)) (combine (seq 0 (length types)) types)) with
          | None => None
          | Some cs => Some (firstn n cs)
          end
    end.
  (** operators.py:296-299 *)
  Definition first_population_lft (n : nat) (lft : option (C * nat)) : option (list C) :=
    match sequence (map lft_draw (seq 0 (n - 1))), lft with
    | Some cs, Some (c, _) => Some (cs ++ [c])
    | _, _ => None
    end.
End Population.
