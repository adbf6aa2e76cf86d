(** Model of setup_landscape (generator/environment/landscape.py:11-70). Names of nodes,
    materials and vehicles are numbers; dictionaries are lists of pairs in the order of insertion. *)
From Coq Require Import ZArith List Bool Arith.
From Verif Require Import TopoModel LandscapeModel.
Import ListNotations.
Local Open Scope Z_scope.

Definition materials := list (nat * Z).
(** platforms_info; warehouses_info: the materials and the vehicles; roads_info: (neighbour, length, workload) *)
Definition platforms_info := list (nat * materials).
Definition warehouses_info := list (nat * (materials * list (nat * materials))).
Definition roads_info := list (nat * list (nat * Z * Z)).
(** ResourceHolder: its name, the position of its node, its vehicles *)
Record holder := Ho { ho_name : nat; ho_node : nat; ho_vehicles : list (nat * materials) }.
(** LandscapeConfiguration: the nodes of the land graph with what they store, the calls of
    add_neighbours (node, neighbour, length) with the bandwidth, and the holders. *)
Record setup := SU { su_nodes : list (nat * materials); su_roads : list ((nat * nat * Z) * Z); su_holders : list holder }.
(** [NoRoads] is NoAvailableResources (landscape_graph.py:71-75) *)
Inductive set_up := Ready (s : setup) | KeyError | NoRoads.

(** name2platform[name] = node: an old key keeps its place *)
Fixpoint assign (d : list (nat * materials)) (k : nat) (v : materials) : list (nat * materials) :=
  match d with [] => [(k, v)] | (k', v') :: r => if Nat.eqb k k' then (k, v) :: r else (k', v') :: assign r k v end.
(** The position of name2platform[name] in list(name2platform.values()) *)
Fixpoint index (d : list (nat * materials)) (k : nat) : option nat :=
  match d with [] => None | (k', _) :: r => if Nat.eqb k k' then Some 0%nat else option_map S (index r k) end.
(** landscape.py:36-40 *)
Definition add_platforms (l : platforms_info) : list (nat * materials) := fold_left (fun d x => assign d (fst x) (snd x)) l [].
(** landscape.py:42-49, the nodes of the warehouses *)
Definition add_warehouses (d : list (nat * materials)) (l : warehouses_info) : list (nat * materials) :=
  fold_left (fun d x => assign d (fst x) (fst (snd x))) l d.
(** landscape.py:50-60; the position of the node of the holder is that of its name, since names
    of warehouses are keys *)
Definition holders_of (d : list (nat * materials)) (l : warehouses_info) : list holder :=
  map (fun x => Ho (fst x) (match index d (fst x) with Some i => i | None => 0%nat end) (snd (snd x))) l.
(** landscape.py:62-64, the list for one node *)
Fixpoint neighbours_of (d : list (nat * materials)) (u : nat) (l : list (nat * Z * Z)) : option (list ((nat * nat * Z) * Z)) :=
  match l with
  | [] => Some []
  | (n, len, load) :: r =>
      match index d n, neighbours_of d u r with
      | Some v, Some t => Some (((u, v, len), load) :: t)
      | _, _ => None
      end
  end.
(** landscape.py:62-64 *)
Fixpoint add_all (d : list (nat * materials)) (l : roads_info) : option (list ((nat * nat * Z) * Z)) :=
  match l with
  | [] => Some []
  | (n, adj) :: r =>
      match index d n with
      | None => None
      | Some u => match neighbours_of d u adj, add_all d r with Some a, Some b => Some (a ++ b) | _, _ => None end
      end
  end.
Definition setup_landscape (ps : platforms_info) (ws : warehouses_info) (rs : roads_info) : set_up :=
  let nodes := add_warehouses (add_platforms ps) ws in
  match add_all nodes rs with
  | None => KeyError
  | Some roads => if all_have_roads (length nodes) (map fst roads) then Ready (SU nodes roads (holders_of nodes ws)) else NoRoads
  end.
