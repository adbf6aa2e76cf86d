(** Model of traversal, construction and serialization of work graphs
    (sampo/schemas/graph.py). *)
From Coq Require Import ZArith List Bool.
From Verif Require Import TimeModel MomentumModel GraphModel TopoModel.
Import ListNotations.

(** The result of running a loop: it ends with a value or is still going after the given
    number of rounds. *)
Inductive run (A : Type) := Ends (a : A) | Running.
Arguments Ends {A}. Arguments Running {A}.

(** graph.py:147-163, traverse_children: the list of the nodes it yields. [visited] is the
    set of visited nodes, which is also what has been yielded so far (newest first). *)
Fixpoint traverse (fuel : nat) (topologically : bool) (g : graph) (visited queue : list nat)
  : run (list nat) :=
  match fuel with
  | O => Running
  | S fuel' =>
      match queue with
      | [] => Ends (rev visited)
      | v :: q =>
          if topologically && existsb (fun e => negb (mem (e_from e) visited)) (edges_to g v)
          then traverse fuel' topologically g visited (q ++ [v])
          else if mem v visited then traverse fuel' topologically g visited q
          else traverse fuel' topologically g (v :: visited) (q ++ map e_to (edges_from g v))
      end
  end.
(** enough rounds for every graph in which the traversal ends (proved) *)
Definition traverse_rounds (g : graph) : nat :=
  let k := S (length (g_edges g)) in S (k * S k + k).
Definition traverse_children (topologically : bool) (g : graph) (start : nat) : run (list nat) :=
  traverse (traverse_rounds g) topologically g [] [start].

(** graph.py:330-345 and 469-490, WorkGraph: the nodes are the topological traversal of
    the start node. The adjacency matrix is not modelled. *)
Record work_graph := WG { wg_graph : graph; wg_start : nat; wg_finish : nat; wg_nodes : list nat }.
Definition make_work_graph (g : graph) (start finish : nat) : run work_graph :=
  match traverse_children true g start with
  | Ends l => Ends (WG g start finish l)
  | Running => Running
  end.

(** graph.py:282-318 and 351-359, from_nodes, get_start_stage and get_finish_stage. The ids
    of the two service nodes are parameters. [None] is the ValueError of max() over no
    nodes. *)
Definition add_service_nodes (g : graph) (nodes : list nat) (start finish : nat) : option graph :=
  let g1 := g_edges g ++ map (fun n => Ed start n 0%Z FS)
                             (filter (fun n => match parents g n with [] => true | _ => false end) nodes) in
  let service := WU true [] 0%Z in
  match filter (fun n => match children (Gr g1 (g_unit g)) n with [] => true | _ => false end) nodes with
  | [] => None
  | ends => Some (Gr (g1 ++ map (fun n => Ed n finish 0%Z FS) ends)
                     (fun n => if Nat.eqb n start || Nat.eqb n finish then service else g_unit g n))
  end.
Definition from_nodes (g : graph) (nodes : list nat) (start finish : nat) : option (run work_graph) :=
  match add_service_nodes g nodes start finish with
  | None => None
  | Some g' => Some (make_work_graph g' start finish)
  end.

(** graph.py:84-89 and 451-454: what is written for each node, in the order of the nodes:
    its id, its work unit and its parent edges. *)
Record node_info := NI { ni_id : nat; ni_unit : work_unit; ni_parents : list (nat * Z * edge_type) }.
Definition serialize (w : work_graph) : list node_info :=
  map (fun n => NI n (g_unit (wg_graph w) n)
                   (map (fun e => (e_from e, e_lag e, e_type e)) (edges_to (wg_graph w) n)))
      (wg_nodes w).

(** graph.py:456-468, _deserialize. Reading the dictionary of the nodes built so far fails
    with KeyError if a parent is missing. *)
Inductive restored := Restored (w : run work_graph) | AssertionErr | KeyErr | IndexErr.
Fixpoint rebuild (l : list node_info) (known : list nat) (g : graph) : option (list nat * graph) :=
  match l with
  | [] => Some (known, g)
  | i :: r =>
      if forallb (fun p => mem (fst (fst p)) known) (ni_parents i) then
        rebuild r (ni_id i :: known)
          (Gr (g_edges g ++ map (fun p => Ed (fst (fst p)) (ni_id i) (snd (fst p)) (snd p)) (ni_parents i))
              (fun n => if Nat.eqb n (ni_id i) then ni_unit i else g_unit g n))
      else None
  end.
Definition deserialize (l : list node_info) : restored :=
  match l with
  | [] => IndexErr
  | first :: _ =>
      match ni_parents first with
      | _ :: _ => AssertionErr
      | [] =>
          match rebuild l [] (Gr [] (fun _ => WU true [] 0%Z)) with
          | None => KeyErr
          | Some (_, g) => Restored (make_work_graph g (ni_id first) (ni_id (last l first)))
          end
      end
  end.
