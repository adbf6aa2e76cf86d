(** Model of the cyclic hybrid scheduler (sampo/hybrid/cycle.py, sampo/hybrid/population.py)
    over chromosomes of any type. The schedulers of the cycle are functions of the round, so
    that each may answer differently each time. The toolbox that the computational backend
    evaluates with is taken to be the one of the project being scheduled. *)
From Coq Require Import ZArith List Bool Arith.
From Verif Require Import GeneticResModel GaModel.
Import ListNotations.
Local Open Scope Z_scope.

(** [Going]: the loop has not ended within the given number of rounds. *)
Inductive cycle_result (C : Type) := Ended (c : C) (rounds : nat) | Raised | Going.
Arguments Ended {C} _ _.
Arguments Raised {C}.
Arguments Going {C}.

(** min of a list of tuples: the first that no later one is below; ValueError if empty *)
Fixpoint least (best : list Z) (l : list (list Z)) : list Z :=
  match l with
  | [] => best
  | x :: r => least (if lex_lt x best then x else best) r
  end.
Definition min_tuple (l : list (list Z)) : option (list Z) :=
  match l with [] => None | x :: r => Some (least x r) end.
(** np.argmin: the first position of the smallest number; ValueError if empty *)
Fixpoint argmin_from (best : Z) (at_ next : nat) (l : list Z) : nat :=
  match l with
  | [] => at_
  | x :: r => if x <? best then argmin_from x next (S next) r else argmin_from best at_ (S next) r
  end.
Definition argmin (l : list Z) : option nat :=
  match l with [] => None | x :: r => Some (argmin_from x O 1 r) end.

Section Cycle.
  Context {C : Type}.
  Variable fit : C -> option (list Z).
  (** backend/default.py:91-95 *)
  Definition compute (pop : list C) : option (list (list Z)) := sequence (map fit pop).
  (** cycle.py:23-25 *)
  Definition population_fitness (pop : list C) : option (list Z) :=
    match compute pop with Some l => min_tuple l | None => None end.
  (** cycle.py:27-29; np.argmin looks at the tuples as one long row of numbers *)
  Definition best_individual (pop : list C) : option C :=
    match compute pop with
    | Some l => match argmin (concat l) with Some i => nth_error pop i | None => None end
    | None => None
    end.
  (** cycle.py:52-53 *)
  Fixpoint run_schedulers (l : list (list C -> option (list C))) (pop : list C) : option (list C) :=
    match l with
    | [] => Some pop
    | s :: r => match s pop with Some pop' => run_schedulers r pop' | None => None end
    end.
  Variable schedulers : nat -> list (list C -> option (list C)).
  Variable max_plateau : nat.
  (** cycle.py:39-55. The first value of cur_fitness is a number, which equals no tuple. *)
  Fixpoint cycle_loop (left round : nat) (cur : option (list Z)) (plateau : nat) (pop : list C) : cycle_result C :=
    match left with
    | O => Going
    | S left' =>
        match population_fitness pop with
        | None => Raised
        | Some v =>
            let same := match cur with Some c => lists_eqb v c | None => false end in
            if same && Nat.eqb (S plateau) max_plateau then
              match best_individual pop with Some c => Ended c round | None => Raised end
            else
              match run_schedulers (schedulers round) pop with
              | None => Raised
              | Some pop' => cycle_loop left' (S round) (Some v) (if same then S plateau else O) pop'
              end
        end
    end.
  (** cycle.py:31-55, after the starting scheduler *)
  Definition cycle_run (rounds : nat) (pop : list C) : cycle_result C := cycle_loop rounds 0 None 0 pop.
End Cycle.

(** population.py:34-35 with genetic/base.py:216-252, upgrade_pop, without a deadline: the
    chromosomes of the last population *)
Definition upgrade_pop {C} shuffle offspring timeout nsga2 multi size weights fit optimize max_plateau number (pop : list C) : option (list C) :=
  match genetic_search shuffle offspring timeout nsga2 multi size weights fit optimize max_plateau number pop with
  | Some st => Some (map i_ch (st_pop st))
  | None => None
  end.
(** population.py:38-54: the given population is not used *)
Definition heuristic_population {C} (encoded : list C) (pop : list C) : option (list C) := Some encoded.
