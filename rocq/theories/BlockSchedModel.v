(** Model of the agents of sampo/scheduler/multi_agency/multi_agency.py with the schedulers
    HEFTScheduler, HEFTBetweenScheduler and TopologicalScheduler: the offers of an agent
    continue the timeline of the blocks it has been given before. *)
From Coq Require Import ZArith List Bool.
From Verif Require Import TimeModel MomentumModel JITModel GraphModel ScheduleModel TopoModel PriorityModel PipelineModel
  TraverseModel ValidationModel OrderModel MultiAgentModel.
Import ListNotations.
Local Open Scope Z_scope.

(** multi_agency.py:31, the timeline of an agent: None at first *)
Inductive tline := NoTimeline | ReleaseTimes (s : jtimeline) | Intervals (s : mstate).

(** generic.py:133-190, build_scheduler with a Momentum timeline that is continued unless it
    is of another type *)
Definition momentum_build_from (g : graph) (est : nat -> list worker -> Z)
           (optimize : nat -> nat -> sched -> mstate -> list border -> option (list bool) -> list Z -> option (list Z))
           (contractors : list contractor) (spec : nat -> work_spec) (apt : Z) (t : tline) (nodes : list nat)
  : outcome (sched * mstate) :=
  build_loop mstate (momentum_times g est) (momentum_schedule g est) (reqs_of g) optimize contractors spec
    true apt nodes [] (match t with Intervals s => s | _ => momentum_init (pool_of contractors) end).
(** the same with a just-in-time timeline *)
Definition jit_build_from (g : graph) (est : nat -> list worker -> Z)
           (optimize : nat -> nat -> sched -> jtimeline -> list border -> option (list bool) -> list Z -> option (list Z))
           (contractors : list contractor) (spec : nat -> work_spec) (apt : Z) (t : tline) (nodes : list nat)
  : outcome (sched * jtimeline) :=
  build_loop jtimeline (jit_find g est) (jit_schedule g est) (reqs_of g) optimize contractors spec
    true apt nodes [] (match t with ReleaseTimes s => s | _ => jit_init (pool_of contractors) end).

(** The work graph of a block, with the nodes of wg.nodes, start, finish and priorities. *)
Record block := Bl { bl_graph : graph; bl_nodes : list nat; bl_start : nat; bl_finish : nat; bl_priority : nat -> Z }.
(** heft/base.py:14-51, topological/base.py:17-29 *)
Inductive scheduler := HEFT | HEFTBetween | Topological.
(** multi_agency.py:29-33, what of an agent does not change: its contractors, its scheduler
    with the time estimator and the resource optimizer. The estimator and the optimizer
    can depend on the block, and [again] on whether it is the second request. *)
Record agent_setup := AS {
  as_contractors : list contractor;
  as_scheduler : scheduler;
  as_estimate : bool -> nat -> nat -> list worker -> Z;
  as_optimize : bool -> nat -> nat -> nat -> sched -> tline -> list border -> option (list bool) -> list Z -> option (list Z) }.
(** schedule_spec.py:8-22, the specification of a work when none is given *)
Definition no_spec (_ : nat) : work_spec := WSpec [] [] None false.

Section Offers.
  Variable setup : nat -> agent_setup.
  Variable blocks : nat -> block.
  (** the orders in which sets are iterated: in the construction of Schedule and in the
      topological sort *)
  Variable listing shuffle : list nat -> list nat.

  (** generic.py:124-131 and multi_agency.py:47-50: the rows of the Schedule, its execution
      time and the timeline *)
  Definition answer {T} (wrap : T -> tline) (g : graph) (apt : Z) (r : PipelineModel.scheduled T) : option (offer_t tline works) :=
    match r with
    | Scheduled sd s =>
        match schedule_rows listing g (rev sd) with
        | Ends rows => match execution_time rows with
                       | Some t => Some (Of apt t rows (wrap s))
                       | None => None
                       end
        | Running => None
        end
    | _ => None
    end.
  (** multi_agency.py:37-50, Agent.offer *)
  Definition agent_offer (i : nat) (again : bool) (t : tline) (b : nat) (apt : Z) : option (offer_t tline works) :=
    let a := setup i in
    let g := bl_graph (blocks b) in
    let est := as_estimate a again b in
    let heft := fun order parent_ids => heft_order g est (bl_priority (blocks b)) parent_ids order in
    let topological := fun order parent_ids => topological_sort (bl_priority (blocks b)) parent_ids shuffle order in
    let intervals := momentum_build_from g est (fun n c sd s => as_optimize a again b n c sd (Intervals s))
                       (as_contractors a) no_spec apt t in
    let releases := jit_build_from g est (fun n c sd s => as_optimize a again b n c sd (ReleaseTimes s))
                       (as_contractors a) no_spec apt t in
    match as_scheduler a with
    | HEFT => answer ReleaseTimes g apt (schedule_with_cache g (bl_nodes (blocks b)) heft releases)
    | HEFTBetween => answer Intervals g apt (schedule_with_cache g (bl_nodes (blocks b)) heft intervals)
    | Topological => answer Intervals g apt (schedule_with_cache g (bl_nodes (blocks b)) topological intervals)
    end.
  (** multi_agency.py:29-35, agents that have done nothing yet *)
  Definition new_agents (count : nat) : list (agent tline) := map (fun i => Ag i NoTimeline 0 0) (seq 0 count).
  (** multi_agency.py:113-160, Manager(agents).manage_blocks(bg) *)
  Definition manage (count : nat) (bg : block_graph) : option (list (sblock works) * list (agent tline)) :=
    manage_blocks agent_offer (new_agents count) bg.
End Offers.
