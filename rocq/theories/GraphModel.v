(** Model of sampo/schemas/graph.py: the work graph as the schedulers read it. *)
From Coq Require Import ZArith List Bool.
From Verif Require Import TimeModel MomentumModel.
Import ListNotations.
Local Open Scope Z_scope.

(** graph.py:17-25, EdgeType *)
Inductive edge_type := IFS | FFS | SS | FF | FS.
(** graph.py:27-33, EdgeType.is_dependency for EdgeType arguments *)
Definition is_dependency (t : edge_type) : bool :=
  match t with FS | IFS | FFS => true | SS | FF => false end.
Definition is_ifs (t : edge_type) : bool := match t with IFS => true | _ => false end.

(** graph.py:36-44, GraphEdge. Nodes are identified by numbers instead of id strings;
    [e_lag] is int(lag), the only way the schedulers use the lag. *)
Record edge := Ed { e_from : nat; e_to : nat; e_lag : Z; e_type : edge_type }.

(** schemas/requirements.py:31-47, WorkerReq: kind, volume, min_count, max_count *)
Record req := Req { r_kind : nat; r_volume : Z; r_min : Z; r_max : Z }.
(** schemas/works.py, the fields of WorkUnit that scheduling reads. Volumes are integers
    in an arbitrary small unit instead of floats. *)
Record work_unit := WU { u_service : bool; u_reqs : list req; u_volume : Z }.

(** A work graph: the edges in the order in which add_parents (graph.py:105-125) added
    them, and the work unit of each node. *)
Record graph := Gr { g_edges : list edge; g_unit : nat -> work_unit }.

(** graph.py:216-228 *)
Definition edges_to (g : graph) (n : nat) : list edge :=
  filter (fun e => Nat.eqb (e_to e) n) (g_edges g).
Definition edges_from (g : graph) (n : nat) : list edge :=
  filter (fun e => Nat.eqb (e_from e) n) (g_edges g).

(** graph.py:165-183, inseparable_son and inseparable_parent *)
Definition inseparable_son (g : graph) (n : nat) : option nat :=
  match filter (fun e => is_ifs (e_type e)) (edges_from g n) with
  | [] => None
  | e :: _ => Some (e_to e)
  end.
Definition inseparable_parent (g : graph) (n : nat) : option nat :=
  match filter (fun e => is_ifs (e_type e)) (edges_to g n) with
  | [] => None
  | e :: _ => Some (e_from e)
  end.

(** graph.py:185-207, parents and children *)
Definition parents (g : graph) (n : nat) : list nat :=
  map e_from (filter (fun e => is_dependency (e_type e)) (edges_to g n)).
Definition children (g : graph) (n : nat) : list nat :=
  map e_to (filter (fun e => is_dependency (e_type e)) (edges_from g n)).

(** graph.py:266-278, _get_inseparable_children; [None] is RecursionError (a cycle of
    inseparable edges). A chain has at most one node per inseparable edge. *)
Fixpoint inseparable_children (fuel : nat) (g : graph) (n : nat) : option (list nat) :=
  match fuel with
  | O => None
  | S fuel' =>
      match inseparable_son g n with
      | None => Some []
      | Some s =>
          match inseparable_children fuel' g s with
          | None => None
          | Some r => Some (s :: r)
          end
      end
  end.

(** graph.py:243-264, get_inseparable_chain_with_self. The cache is not modelled. *)
Definition chain_of (g : graph) (n : nat) : option (list nat) :=
  match inseparable_son g n, inseparable_parent g n with
  | Some _, None =>
      match inseparable_children (S (length (g_edges g))) g n with
      | None => None
      | Some r => Some (n :: r)
      end
  | _, _ => Some [n]
  end.

(** schemas/scheduled_work.py, the fields used here; [sw_team] is the list of workers *)
Record swork := SW { sw_start : Z; sw_finish : Z; sw_team : list worker; sw_contractor : nat }.

(** The dictionary node2swork. The newest entry comes first; assignment puts an entry in
    front and lookup takes the first one. *)
Definition sched := list (nat * swork).
Fixpoint sd_get (sd : sched) (n : nat) : option swork :=
  match sd with
  | [] => None
  | (m, w) :: r => if Nat.eqb m n then Some w else sd_get r n
  end.

(** graph.py:289-291, min_start_time: every edge counts, whatever its type *)
Fixpoint parent_times (sd : sched) (es : list edge) : list Z :=
  match es with
  | [] => []
  | e :: r =>
      match sd_get sd (e_from e) with
      | Some w => tadd (sw_finish w) (e_lag e) :: parent_times sd r
      | None => parent_times sd r
      end
  end.
Definition max_default0 (l : list Z) : Z :=
  match l with
  | [] => 0
  | x :: r => fold_left tmax r x
  end.
Definition min_start_time (g : graph) (sd : sched) (n : nat) : Z :=
  max_default0 (parent_times sd (edges_to g n)).
