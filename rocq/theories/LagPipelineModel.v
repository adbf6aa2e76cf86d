(** Model of the lag strategies of the default pipeline (sampo/pipeline/default.py:230-284,
    sampo/pipeline/lag_optimization.py): the work graph is restructured with and without the
    use of lags, both graphs are scheduled, and the shorter schedule is kept. *)
From Coq Require Import ZArith QArith List Bool Cantor.
From Verif Require Import TimeModel MomentumModel JITModel GraphModel ScheduleModel TopoModel TraverseModel ValidationModel OrderModel
  PipelineModel ResourceModel EnvModel RestructModel.
Import ListNotations.
Local Open Scope Z_scope.

(** A work graph with everything that restructuring and scheduling read: start and finish, the
    works in the order of WorkGraph.nodes, the edges with their lags, volumes, work units,
    the amounts of equipment, objects and materials, and the priorities. Volumes, on which
    lags are measured, are rationals instead of floats. *)
Record project := Pj { pj_start : nat; pj_finish : nat; pj_nodes : list nat; pj_edges : list redge;
  pj_volume : nat -> Q; pj_unit : nat -> work_unit; pj_counts : nat -> list (list Z); pj_prio : nat -> Z }.
(** What the schedulers read of it; lags are read as int(lag) (graph.py:289-291). *)
Definition plain_graph (p : project) : graph :=
  Gr (map (fun e => Ed (re_from e) (re_to e) (qint (re_lag e)) (re_type e)) (pj_edges p)) (pj_unit p).
(** What restructuring reads of it: the amounts are the volumes of the requirements for
    workers, and the counts of the other requirements. *)
Definition pj_rgraph (p : project) : rgraph :=
  RG (pj_nodes p) (pj_edges p) (pj_volume p) (fun w => map r_volume (u_reqs (pj_unit p w)) :: pj_counts p w).

(** Numbers for the ids of stages, which are strings in the code *)
Definition code (i : nid) : nat := to_nat (fst i, match snd i with None => 0 | Some k => S k end)%nat.
Definition decode (n : nat) : nid := let (w, k) := of_nat n in (w, match k with O => None | S i => Some i end).

(** structurator/base.py:155-193, make_new_stage_node: the requirements of the work with the
    amounts of the stage. The integral volume, which only assigned times read, is rounded. *)
Definition with_volume (r : req) (v : Z) : req := Req (r_kind r) v (r_min r) (r_max r).
Definition stage_unit (p : project) (stages : list stage) (i : nid) : work_unit :=
  match find (fun s => nid_eqb (st_id s) i) stages with
  | None => WU true [] 0
  | Some s =>
      let u := pj_unit p (fst i) in
      WU (u_service u) (zip_with with_volume (u_reqs u) (hd [] (st_amounts s))) (qint (st_share s * inject_Z (u_volume u)))
  end.
Definition stage_graph (p : project) (stages : list stage) (edges : list nedge) : graph :=
  Gr (map (fun ne => Ed (code (ne_from ne)) (code (ne_to ne)) (qint (ne_lag ne)) (ne_type ne)) edges)
     (fun n => stage_unit p stages (decode n)).
(** schedule_spec.py:69-70, get_work_spec for the id of a stage: only the last stage has the
    id for which a specification was given. *)
Definition stage_spec (spec : nat -> work_spec) (n : nat) : work_spec :=
  match snd (decode n) with None => spec (fst (decode n)) | Some _ => WSpec [] [] None false end.

(** structurator/base.py:332-379, graph_restructuring with the WorkGraph constructor and the
    correction of the priorities: the new graph and its priorities. [None] is an exception or
    an endless loop. *)
Definition graph_restructuring (depth : nat) (p : project) (prio : nat -> Z) (use_lag : bool) : option (work_graph * (nat -> Z)) :=
  match restructure (pj_rgraph p) use_lag with
  | None => None
  | Some (stages, edges) =>
      match make_work_graph (stage_graph p stages edges) (code (pj_start p, None)) (code (pj_finish p, None)) with
      | Running => None
      | Ends w =>
          match check_and_correct depth (wg_graph w) (wg_nodes w) (fun n => prio (fst (decode n))) with
          | None => None
          | Some prio' => Some (w, prio')
          end
      end
  end.

(** lag_optimization.py:4-7 *)
Inductive lag_strategy := LagTrue | LagFalse | LagAuto.
Section Lag.
  Context {T : Type}.
  (** schedule_with_cache of the scheduler for a graph with its priorities, contractors and
      the specifications of its nodes *)
  Variable run_scheduler : graph -> list nat -> (nat -> Z) -> list contractor -> (nat -> work_spec) -> scheduled T.
  (** what was specified, by the ids of works *)
  Variable spec : nat -> work_spec.
  (** the order in which sets of nodes are iterated, see [OrderModel] *)
  Variable listing : list nat -> list nat.
  (** schedule.py:76-83, execution_time of the Schedule made of the scheduled works *)
  Definition time_of (g : graph) (sd : sched) : option Z :=
    match schedule_rows listing g (rev sd) with Ends rows => execution_time rows | Running => None end.
  (** default.py:233-240 and 242-249: the list of schedules has one element for the generic
      schedulers *)
  Definition restructured_run (depth : nat) (p : project) (prio : nat -> Z) (cs : list contractor) (use_lag : bool)
    : scheduled (work_graph * T * Z) :=
    match graph_restructuring depth p prio use_lag with
    | None => InternalError
    | Some (w, prio') =>
        match run_scheduler (wg_graph w) (wg_nodes w) prio' cs (stage_spec spec) with
        | Scheduled sd s => match time_of (wg_graph w) sd with Some t => Scheduled sd (w, s, t) | None => InternalError end
        | CircularGraph => CircularGraph
        | NotEnoughWorkers => NotEnoughWorkers
        | InternalError => InternalError
        end
    end.
  (** default.py:230-259, the case AUTO: min_time1 < min_time2 *)
  Definition auto_run (depth : nat) (p : project) (prio : nat -> Z) (cs : list contractor) : scheduled (work_graph * T) :=
    match restructured_run depth p prio cs false with
    | Scheduled sd1 (w1, s1, t1) =>
        match restructured_run depth p prio cs true with
        | Scheduled sd2 (w2, s2, t2) => if t1 <? t2 then Scheduled sd1 (w1, s1) else Scheduled sd2 (w2, s2)
        | CircularGraph => CircularGraph
        | NotEnoughWorkers => NotEnoughWorkers
        | InternalError => InternalError
        end
    | CircularGraph => CircularGraph
    | NotEnoughWorkers => NotEnoughWorkers
    | InternalError => InternalError
    end.
  (** default.py:272-282, the case _ *)
  Definition plain_run (p : project) (prio : nat -> Z) (cs : list contractor) : scheduled (work_graph * T) :=
    match run_scheduler (plain_graph p) (pj_nodes p) prio cs spec with
    | Scheduled sd s => Scheduled sd (WG (plain_graph p) (pj_start p) (pj_finish p) (pj_nodes p), s)
    | CircularGraph => CircularGraph
    | NotEnoughWorkers => NotEnoughWorkers
    | InternalError => InternalError
    end.
  (** default.py:189-284, schedule, for a WorkGraph, without local optimizers. The pattern of
      the second case, TRUE, FALSE, is a pair and matches no strategy, so that TRUE and FALSE
      go to the last case. *)
  Definition lag_pipeline (depth : nat) (strategy : lag_strategy) (p : project) (input : contractors_input) : scheduled (work_graph * T) :=
    pipeline_schedule depth (plain_graph p) (pj_nodes p) (pj_prio p) input
      (fun prio' cs => match strategy with
                       | LagAuto => auto_run depth p prio' cs
                       | LagTrue | LagFalse => plain_run p prio' cs
                       end).
End Lag.
