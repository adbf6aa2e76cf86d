(** Model of GenericScheduler.schedule_with_cache (sampo/scheduler/generic.py:107-131) up to
    the construction of the Schedule, for the schedulers built on it. *)
From Coq Require Import ZArith List Bool.
From Verif Require Import TimeModel MomentumModel JITModel GraphModel ScheduleModel TopoModel HeadModel PriorityModel.
Import ListNotations.

(** CircularDependencyError, NoSufficientContractorError, any other exception *)
Inductive scheduled (T : Type) :=
  | Scheduled (sd : sched) (s : T) | CircularGraph | NotEnoughWorkers | InternalError.
Arguments Scheduled {T} sd s.
Arguments CircularGraph {T}.
Arguments NotEnoughWorkers {T}.
Arguments InternalError {T}.

(** generic.py:116-123 *)
Definition schedule_with_cache {T} (g : graph) (nodes : list nat)
           (prioritize : list nat -> (nat -> list nat) -> option (list nat))
           (build : list nat -> outcome (sched * T)) : scheduled T :=
  match head_nodes g nodes with
  | HeadCycle => CircularGraph
  | HeadCrash => InternalError
  | Heads order parent_ids _ =>
      match prioritize order (ids_of parent_ids) with
      | None => InternalError
      | Some l =>
          match build l with
          | Done (sd, s) => Scheduled sd s
          | NoContractor => NotEnoughWorkers
          | Crash => InternalError
          end
      end
  end.

(** heft/base.py:14-36, HEFTScheduler: HEFT order, release-time timeline *)
Definition heft_end g nodes est prio optimize cs spec apt : scheduled jtimeline :=
  schedule_with_cache g nodes (fun order parent_ids => heft_order g est prio parent_ids order)
    (jit_build g est optimize cs spec apt).
(** heft/base.py:39-51, HEFTBetweenScheduler: HEFT order, interval timeline *)
Definition heft_between g nodes est prio optimize cs spec apt : scheduled mstate :=
  schedule_with_cache g nodes (fun order parent_ids => heft_order g est prio parent_ids order)
    (momentum_build g est optimize cs spec apt).
(** topological/base.py:17-29, TopologicalScheduler; [shuffle] lists the sets *)
Definition topological_scheduler g nodes est prio shuffle optimize cs spec apt : scheduled mstate :=
  schedule_with_cache g nodes (fun order parent_ids => topological_sort prio parent_ids shuffle order)
    (momentum_build g est optimize cs spec apt).
