(** Model of the genetic scheduler on its chromosomes: the data structures of
    sampo/scheduler/genetic/utils.py, the combined operators and the evaluation of
    sampo/scheduler/genetic/operators.py, and the whole of
    sampo/scheduler/genetic/schedule_builder.py on top of [GaModel]. Random answers are
    arguments. Works without zones and materials; no timeline is given by the caller. *)
From Coq Require Import ZArith List Bool Arith.
From Verif Require Import TimeModel MomentumModel JITModel GraphModel ScheduleModel TopoModel HeadModel PriorityModel PipelineModel TraverseModel ValidationModel OrderModel
  GeneticModel GeneticResModel SgsModel GaModel.
Import ListNotations.
Local Open Scope Z_scope.

(** ** genetic/utils.py:34-88, prepare_optimized_data_structures *)
Record toolbox := TB {
  tb_names : list nat;              (* worker_name2index *)
  tb_nodes : list nat;              (* index2node *)
  tb_parents : nat -> list nat;     (* parents, by index *)
  tb_children : nat -> list nat;    (* children, by index *)
  tb_prio : nat -> Z;               (* priorities, by index *)
  tb_lows : nat -> list Z;          (* resources_border[0], by index *)
  tb_ups : nat -> list Z;           (* resources_border[1], by index *)
  tb_avail : nat -> list nat;       (* contractors_available, the indices with 1 *)
  tb_cborders : list (list Z) }.    (* contractor_borders *)
(** utils.py:65-69, a mapping of node ids as a mapping of indices *)
Definition by_index (nodes : list nat) (d : deps) (w : nat) : list nat :=
  match nth_error nodes w with
  | None => []
  | Some n => concat (map (fun p => match index_of nodes p with Some i => [i] | None => [] end) (ids_of d n))
  end.
(** utils.py:73-79, the cells of one work: zero, overwritten by each requirement *)
Definition req_value (f : req -> Z) (reqs : list req) (k : nat) : Z :=
  fold_left (fun v r => if Nat.eqb (r_kind r) k then f r else v) reqs 0.
Definition border_row (g : graph) (names nodes : list nat) (f : req -> Z) (w : nat) : list Z :=
  match nth_error nodes w with
  | None => []
  | Some n => map (req_value f (reqs_of g n)) names
  end.
(** utils.py:81-83 *)
Definition available (cs : list contractor) (spec : nat -> work_spec) (nodes : list nat) (w : nat) : list nat :=
  match nth_error nodes w with
  | None => []
  | Some n =>
      filter (fun ci => match sp_contractors (spec n) with
                        | [] => true
                        | ids => mem (nth ci (map ct_id cs) O) ids
                        end) (seq 0 (length cs))
  end.
(** [None]: KeyError for a profession that no contractor has or for an unknown contractor,
    IndexError of the borders, CircularDependencyError. *)
Definition prepare (g : graph) (works : list nat) (cs : list contractor) (spec : nat -> work_spec) (prio : nat -> Z) : option toolbox :=
  let names := worker_names cs in
  match contractor_borders cs, head_nodes g works with
  | Some cb, Heads nodes parent_ids child_ids =>
      if forallb (fun n => forallb (fun r => mem (r_kind r) names) (reqs_of g n) &&
                           forallb (fun id => mem id (map ct_id cs)) (sp_contractors (spec n))) nodes
      then Some (TB names nodes (by_index nodes parent_ids) (by_index nodes child_ids)
                    (fun w => match nth_error nodes w with Some n => prio n | None => 0 end)
                    (border_row g names nodes r_min) (border_row g names nodes r_max) (available cs spec nodes) cb)
      else None
  | _, _ => None
  end.

(** ** The combined operators *)
(** The random answers in one generation; the first argument is the number of the pair
    (of mates) or of the mutant. *)
Record draws := Draws {
  d_randint : nat -> nat -> nat -> nat -> nat;   (* order crossover *)
  d_swapped : nat -> nat -> bool;                (* rows to swap *)
  d_border_sel : nat -> nat -> nat -> bool; d_border_pick : nat -> nat -> nat -> list Z -> Z;
  d_order_sel : nat -> nat -> nat -> bool; d_order_shuffle : nat -> nat -> list nat -> list nat;
  d_order_pick : nat -> nat -> nat -> list nat -> nat;
  d_contractor_sel : nat -> nat -> bool; d_contractor_pick : nat -> nat -> list nat -> nat;
  d_row_sel : nat -> nat -> nat -> bool; d_row_pick : nat -> nat -> nat -> list Z -> Z }.

Section Operators.
  Variable tb : toolbox.
  Variable d : draws.
  (** operators.py:728-751, mate: the children are copies and keep the specification of
      their own parent *)
  Definition mate (optimize : bool) (j : nat) (a b : chromosome) : option (chromosome * chromosome) :=
    match mate_order (d_randint d j) (tb_prio tb) (ch_order a) (ch_order b) with
    | None => None
    | Some (o1, o2) =>
        let '((r1, b1), (r2, b2)) := mate_resources (d_swapped d j) optimize (ch_rows a) (ch_borders a) (ch_rows b) (ch_borders b) in
        Some (Chr o1 r1 b1 (ch_spec a), Chr o2 r2 b2 (ch_spec b))
    end.
  (** operators.py:754-776, mutate *)
  Definition mutate (j : nat) (ch : chromosome) : option chromosome :=
    match mutate_order (d_order_sel d j) (d_order_shuffle d j) (d_order_pick d j) (tb_parents tb) (tb_children tb) (tb_prio tb) (ch_order ch) with
    | None => None
    | Some o =>
        match mutate_resources (d_contractor_sel d j) (d_contractor_pick d j) (d_row_sel d j) (d_row_pick d j)
                (tb_lows tb) (tb_ups tb) (tb_avail tb) (ch_borders ch) (ch_rows ch) with
        | None => None
        | Some r => Some (Chr o r (ch_borders ch) (ch_spec ch))
        end
    end.
  (** schedule_builder.py:376-382, one mutant *)
  Definition mutate_one (optimize : bool) (j : nat) (ch : chromosome) : option chromosome :=
    if optimize then
      match mutate_borders (d_border_sel d j) (d_border_pick d j) (tb_cborders tb) (ch_rows ch) (ch_borders ch) with
      | None => None
      | Some bs => mutate j (Chr (ch_order ch) (ch_rows ch) bs (ch_spec ch))
      end
    else mutate j ch.
  (** schedule_builder.py:372-374: pairs of neighbours; a last odd one has no mate *)
  Fixpoint mate_pairs (optimize : bool) (j : nat) (pop : list chromosome) : option (list chromosome) :=
    match pop with
    | a :: b :: rest =>
        match mate optimize j a b, mate_pairs optimize (S j) rest with
        | Some (c1, c2), Some l => Some (c1 :: c2 :: l)
        | _, _ => None
        end
    | _ => Some []
    end.
  (** schedule_builder.py:369-385, make_offspring *)
  Definition make_offspring (optimize : bool) (pop : list chromosome) : option (list chromosome) :=
    match mate_pairs optimize 0 pop with
    | None => None
    | Some l => sequence (map (fun x => mutate_one optimize (fst x) (snd x)) (indexed l))
    end.
End Operators.

(** ** Evaluation *)
Section Evaluate.
  Variable g : graph.
  Variable cs : list contractor.
  Variable tb : toolbox.
  (** converter.py:92-112, convert_chromosome_to_schedule with the serial or the parallel
      scheme; [None] is an exception *)
  Variable decode : chromosome -> option sched.
  (** the order in which a set is iterated *)
  Variable listing : list nat -> list nat.
  (** operators.py:421-435 with schedule_spec.py, is_contractor_enabled *)
  Definition enabled (ch : chromosome) (w ci : nat) : bool :=
    match nth_error (tb_nodes tb) w with
    | None => false
    | Some n => match sp_contractors (ch_spec ch n) with
                | [] => true
                | ids => mem (nth ci (map ct_id cs) O) ids
                end
    end.
  (** operators.py:389-398, is_chromosome_correct *)
  Definition validate (ch : chromosome) : bool :=
    order_correct (tb_parents tb) (tb_prio tb) (ch_order ch) &&
    contractors_correct (enabled ch) (tb_cborders tb) (ch_order ch) (ch_rows ch) (ch_borders ch).
  (** operators.py:243-248, evaluate, and a fitness function applied to the schedule;
      [worst] is its answer without a schedule *)
  Definition evaluate_with (fitness : works -> list Z) (worst : list Z) (ch : chromosome) : option (list Z) :=
    if validate ch then
      match decode ch with
      | None => None
      | Some sd => match schedule_rows listing g (rev sd) with
                   | Ends rows => Some (fitness rows)
                   | Running => None
                   end
      end
    else Some worst.
  (** operators.py:28-38, TimeFitness; the 0 of an empty schedule stands for an exception
      (never with works) *)
  Definition time_fitness (rows : works) : list Z :=
    [match execution_time rows with Some t => t | None => 0 end].
End Evaluate.

(** schedule_builder.py:120-361 without deadline, from the first population on. The
    schedules answered. *)
Definition genetic_schedules (g : graph) (cs : list contractor) (tb : toolbox) (decode : chromosome -> option sched) (listing : list nat -> list nat)
           (shuffle : nat -> nat -> list (individual chromosome) -> list (individual chromosome))
           (draw : nat -> nat -> draws) (timeout : nat -> nat -> bool)
           (nsga2 : nat -> nat -> list (individual chromosome) -> list (individual chromosome))
           (multi : bool) (size : nat) (weights : list Z) (fitness : works -> list Z) (worst : list Z)
           (optimize : bool) (max_plateau : option nat) (number : nat) (init : list chromosome) : option (list (chromosome * sched)) :=
  match genetic_search shuffle (fun s gen opt pop => make_offspring tb (draw s gen) opt pop) timeout nsga2 multi size weights
          (evaluate_with g cs tb decode listing fitness worst) optimize max_plateau number init with
  | None => None
  | Some st => sequence (map (fun h => match decode (i_ch h) with Some sd => Some (i_ch h, sd) | None => None end) (st_hof st))
  end.

(** ** Individuals made from heuristic schedules *)
(** generic.py:106-131, schedule_with_cache without its validation: the schedule and the order it was
    built in (the heads of the chains) *)
Definition heuristic_schedule {T} (g : graph) (works : list nat) (prioritize : list nat -> (nat -> list nat) -> option (list nat))
           (build : list nat -> outcome (sched * T)) : option (sched * list nat) :=
  match head_nodes g works with
  | Heads order parent_ids _ =>
      match prioritize order (ids_of parent_ids) with
      | Some l => match build l with Done (sd, _) => Some (sd, l) | _ => None end
      | None => None
      end
  | _ => None
  end.
(** base.py:188-194, init_schedule, and utils.py:24-30, the conversion of its
    result; HEFTBetweenScheduler *)
Definition heft_between_individual (g : graph) (works : list nat) (est : nat -> list worker -> Z) (prio : nat -> Z) optimize (cs : list contractor)
           (spec : nat -> work_spec) (tb : toolbox) : option chromosome :=
  match heuristic_schedule g works (fun order parent_ids => heft_order g est prio parent_ids order) (momentum_build g est optimize cs spec 0) with
  | Some (sd, order) => encode (tb_names tb) cs (tb_nodes tb) (tb_cborders tb) spec sd order
  | None => None
  end.
