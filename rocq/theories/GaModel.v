(** Model of the genetic search (sampo/scheduler/genetic/schedule_builder.py) over chromosomes
    of any type. Every answer of the random generator, the clock and the selection of deap's
    NSGA-II are arguments. Fitness values are integers: only their order and their products
    with the weights are used, so rational values can be scaled. Modelled library code:
    deap.base.Fitness (comparison of weighted values), deap.tools.ParetoFront.
    Not modelled: logging and the caches of the computational backend. *)
From Coq Require Import ZArith List Bool Arith.
From Verif Require Import GeneticResModel.
Import ListNotations.
Local Open Scope Z_scope.

(** ** Fitness (deap.base.Fitness) *)
(** the values times the weights *)
Definition weighted (weights values : list Z) : list Z := zip Z.mul values weights.
(** comparison of tuples *)
Fixpoint lex_lt (a b : list Z) : bool :=
  match a, b with
  | [], [] => false
  | [], _ :: _ => true
  | _ :: _, [] => false
  | x :: a', y :: b' => if x <? y then true else if y <? x then false else lex_lt a' b'
  end.
Fixpoint lists_eqb (a b : list Z) : bool :=
  match a, b with
  | [], [] => true
  | x :: a', y :: b' => (x =? y) && lists_eqb a' b'
  | _, _ => false
  end.
(** Fitness.dominates *)
Fixpoint dominates_loop (not_equal : bool) (a b : list Z) : bool :=
  match a, b with
  | x :: a', y :: b' =>
      if y <? x then dominates_loop true a' b'
      else if x <? y then false
      else dominates_loop not_equal a' b'
  | _, _ => not_equal
  end.
Definition dominates (a b : list Z) : bool := dominates_loop false a b.

(** genetic_api.py, Individual: a chromosome with its fitness values and the attribute
    [time] used with deadlines *)
Record individual (C : Type) := Ind { i_ch : C; i_values : list Z; i_time : Z }.
Arguments Ind {C} _ _ _.
Arguments i_ch {C} _.
Arguments i_values {C} _.
Arguments i_time {C} _.

Section Front.
  Context {C : Type}.
  Variable weights : list Z.
  Notation ind := (individual C).
  Definition key (x : ind) : list Z := weighted weights (i_values x).
  (** tools.ParetoFront.update, the scan for one individual: whether it is dominated or has
      a twin, and the members that stay. schedule_builder.py:364-366 compare_individuals
      holds for any two individuals with equal fitness. *)
  Fixpoint scan (dominates_one : bool) (x : ind) (hof : list ind) : bool * list ind :=
    match hof with
    | [] => (false, [])
    | h :: r =>
        if negb dominates_one && dominates (key h) (key x) then (true, h :: r)
        else if dominates (key x) (key h) then scan true x r
        else if lists_eqb (key x) (key h) then (true, h :: r)
        else let (skip, kept) := scan dominates_one x r in (skip, h :: kept)
    end.
  (** tools.HallOfFame.insert: the members are sorted, the best first *)
  Fixpoint insert (x : ind) (hof : list ind) : list ind :=
    match hof with
    | [] => [x]
    | h :: r => if lex_lt (key x) (key h) then h :: insert x r else x :: h :: r
    end.
  Definition front_add (hof : list ind) (x : ind) : list ind :=
    let (skip, kept) := scan false x hof in if skip then kept else insert x kept.
  Definition front_update (hof pop : list ind) : list ind := fold_left front_add pop hof.
  (** operators.py:380-386, select_new_population: sorted by fitness, best first, stable *)
  Fixpoint place (x : ind) (l : list ind) : list ind :=
    match l with
    | [] => [x]
    | y :: r => if lex_lt (key x) (key y) then y :: place x r else x :: y :: r
    end.
  Definition sort_best (l : list ind) : list ind := fold_right place [] l.
  Definition select_best (k : nat) (l : list ind) : list ind := firstn k (sort_best l).
End Front.

(** What a stage of the search ends with; [st_seen] lists every individual evaluated (it is
    not kept by the code). *)
Record stage (C : Type) := Stage {
  st_pop : list (individual C); st_hof : list (individual C); st_best : list Z; st_gen : nat; st_seen : list (individual C) }.
Arguments Stage {C} _ _ _ _ _.
Arguments st_pop {C} _.
Arguments st_hof {C} _.
Arguments st_best {C} _.
Arguments st_gen {C} _.
Arguments st_seen {C} _.

Section Search.
  Context {C : Type}.
  Notation ind := (individual C).
  (** first argument: the stage (1 or 2); second: the generation *)
  Variable shuffle : nat -> nat -> list ind -> list ind.
  (** schedule_builder.py:369-385, make_offspring; [None] is an exception *)
  Variable offspring : nat -> nat -> bool -> list C -> option (list C).
  (** the time border is exceeded *)
  Variable timeout : nat -> nat -> bool.
  (** selection used with is_multiobjective *)
  Variable nsga2 : nat -> nat -> list ind -> list ind.
  (** rand.choices(pop, k) *)
  Variable choices : list ind -> nat -> list ind.
  Variable multi : bool.
  Variable population_size : nat.

  (** operators.py:184-185, toolbox.select *)
  Definition select (weights : list Z) (s gen : nat) (l : list ind) : list ind :=
    if multi then nsga2 s gen l else select_best weights population_size l.
  (** backend/default.py:88-92, compute_chromosomes, and the assignment of the values *)
  Definition evaluate (fit : C -> option (list Z)) (cs : list C) : option (list ind) :=
    sequence (map (fun c => match fit c with Some v => Some (Ind c v 0) | None => None end) cs).
  (** schedule_builder.py:200-236 and 301-339, the loop over generations. [eval] evaluates
      the offspring, [enough] is the test of the deadline at the end of a generation. *)
  Fixpoint generations (weights : list Z) (eval : list C -> option (list ind)) (enough : list Z -> list ind -> bool)
           (optimize : bool) (max_plateau s left gen plateau : nat) (pop hof : list ind) (best : list Z) (seen : list ind)
    : option (stage C) :=
    match left with
    | O => Some (Stage pop hof best gen seen)
    | S left' =>
        if Nat.ltb plateau max_plateau && negb (timeout s gen) then
          let pop1 := shuffle s gen pop in
          match offspring s gen optimize (map i_ch pop1) with
          | None => None
          | Some cs =>
              match eval cs with
              | None => None
              | Some off =>
                  let pop2 := select weights s gen (pop1 ++ off) in
                  let hof2 := front_update weights hof pop2 in
                  match hof2 with
                  | [] => None
                  | h :: _ =>
                      let best2 := i_values h in
                      let plateau2 := if lists_eqb best2 best then S plateau else O in
                      if enough best2 pop2 then Some (Stage pop2 hof2 best2 gen (seen ++ off))
                      else generations weights eval enough optimize max_plateau s left' (S gen) plateau2 pop2 hof2 best2 (seen ++ off)
                  end
              end
          end
        else Some (Stage pop hof best gen seen)
    end.

  (** schedule_builder.py:171-236 *)
  Definition first_stage (weights : list Z) (fit : C -> option (list Z)) (enough : list Z -> list ind -> bool)
             (optimize : bool) (max_plateau : option nat) (number : nat) (init : list C) : option (stage C) :=
    match evaluate fit init with
    | None => None
    | Some pop =>
        let hof := front_update weights [] pop in
        match hof with
        | [] => None
        | h :: _ =>
            generations weights (evaluate fit) enough optimize
              (match max_plateau with Some m => m | None => number end) 1 number 1 0 pop hof (i_values h) pop
        end
    end.
  (** schedule_builder.py:120-361 without a deadline: what is decoded and the population *)
  Definition genetic_search (weights : list Z) (fit : C -> option (list Z)) (optimize : bool) (max_plateau : option nat)
             (number : nat) (init : list C) : option (stage C) :=
    first_stage weights fit (fun _ _ => false) optimize max_plateau number init.

  (** ** With a deadline *)
  (** schedule_builder.py:230-232 *)
  Definition all_in_time (deadline : Z) (best : list Z) (pop : list ind) : bool :=
    (hd 0 best <=? deadline) && forallb (fun x => hd 0 (i_values x) <=? deadline) pop.
  (** schedule_builder.py:264-273 *)
  Definition evaluate_again (fit : C -> option (list Z)) (pop : list ind) : option (list ind) :=
    sequence (map (fun x => match fit (i_ch x) with Some v => Some (Ind (i_ch x) v (i_time x)) | None => None end) pop).
  (** schedule_builder.py:310-322 *)
  Definition evaluate_in_time (time_fit fit : C -> option (list Z)) (deadline : Z) (cs : list C) : option (list ind) :=
    match sequence (map (fun c => match time_fit c with Some v => Some (Ind c v (hd 0 v)) | None => None end) cs) with
    | None => None
    | Some timed => evaluate_again fit (filter (fun x => i_time x <=? deadline) timed)
    end.
  (** schedule_builder.py:240-344; the result with the first stage *)
  Definition second_stage (weights : list Z) (time_fit fit : C -> option (list Z)) (deadline : Z)
             (max_plateau : option nat) (number : nat) (st : stage C) : option (stage C) :=
    let timed := map (fun x => Ind (i_ch x) (i_values x) (hd 0 (i_values x))) (st_pop st) in
    let best := hd 0 (st_best st) in
    let reached := best <=? deadline in
    let kept := filter (fun x => if reached then i_time x <=? deadline else i_time x =? best) timed in
    match evaluate_again fit kept with
    | None => None
    | Some pop =>
        let hof := front_update weights [] pop in
        if reached then
          match hof with
          | [] => None
          | h :: _ =>
              let pop' := if Nat.ltb (length pop) population_size
                          then pop ++ choices pop (population_size - length pop) else pop in
              generations weights (evaluate_in_time time_fit fit deadline) (fun _ _ => false) true
                (match max_plateau with Some m => m | None => (number + 1 - st_gen st)%nat end)
                2 (number + 1 - st_gen st) (st_gen st) 0 pop' hof (i_values h) pop
          end
        else Some (Stage pop hof (st_best st) (st_gen st) pop)
    end.
  (** schedule_builder.py:120-361 with a deadline. The first stage minimizes the time. *)
  Definition genetic_search_deadline (weights : list Z) (time_fit fit : C -> option (list Z)) (deadline : Z)
             (optimize : bool) (max_plateau : option nat) (number : nat) (init : list C) : option (stage C * stage C) :=
    match first_stage [-1] time_fit (all_in_time deadline) optimize max_plateau (Nat.div number 2) init with
    | None => None
    | Some st =>
        match second_stage weights time_fit fit deadline max_plateau number st with
        | None => None
        | Some st' => Some (st, st')
        end
    end.
End Search.
