(** Model of the default pipeline for a table of works: the table is read, a work graph is
    made from it, and it is scheduled (sampo/pipeline/default.py:189-284). *)
From Coq Require Import ZArith QArith List Bool.
From Verif Require Import TimeModel ParserModel GraphModel ScheduleModel TraverseModel ValidationModel EnvModel PipelineModel RestructModel LagPipelineModel.
Import ListNotations.
Local Open Scope Z_scope.

(** The work graph with everything that scheduling reads. Rows without a column of priorities
    get priority 1 (general_build.py:265), and so do the start (works.py:26) and the finish,
    which gets the greatest one of its predecessors (graph.py:318-320). Tables do not ask for
    equipment, objects or materials (general_build.py:267-270). Lags and volumes, which are
    floats, are integers here, as they are in [ParserModel]. *)
Definition project_of (w : work_graph) : project :=
  Pj (wg_start w) (wg_finish w) (wg_nodes w)
     (map (fun e => RE (e_from e) (e_to e) (inject_Z (e_lag e)) (e_type e)) (g_edges (wg_graph w)))
     (fun n => inject_Z (u_volume (g_unit (wg_graph w) n))) (g_unit (wg_graph w)) (fun _ => []) (fun _ => 1).

Section TableSchedule.
  Context {T : Type}.
  Variable run_scheduler : graph -> list nat -> (nat -> Z) -> list contractor -> (nat -> work_spec) -> scheduled T.
  Variable listing : list nat -> list nat.
  Variables (to_float : str -> res Q) (topological_sort : list nat -> list (nat * nat) -> option (list nat)) (set_order : list nat -> list nat).
  Variables (kinds : list nat) (find_work_resources : str -> Z -> list req) (start finish : nat).
  (** schedule_spec.py:69-70, get_work_spec, by the number of a work; the ids of start and
      finish are new, so that nothing can be specified for them *)
  Definition node_spec (names : list str) (spec : str -> work_spec) (n : nat) : work_spec :=
    match nth_error names n with Some id => spec id | None => WSpec [] [] None false end.
  (** default.py:189-284, schedule, for a DataFrame of works without history and a list of
      contractors. [None]: reading the table raises an exception; an empty list of contractors
      is an exception as well (csv_parser.py:197-198). *)
  Definition table_schedule (depth : nat) (strategy : lag_strategy) (spec : str -> work_spec) (cs : list contractor) (table : list cells)
    : option (work_graph * scheduled (work_graph * T)) :=
    match parse to_float topological_sort set_order kinds find_work_resources start finish table with
    | Ok (Ends w) =>
        match cs with
        | [] => None
        | _ => Some (w, lag_pipeline run_scheduler (node_spec (map c_id table) spec) listing depth strategy (project_of w) (Given cs))
        end
    | _ => None
    end.
End TableSchedule.
