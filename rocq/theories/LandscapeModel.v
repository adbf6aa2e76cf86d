(** Model of sampo/schemas/landscape_graph.py and of the routes in
    sampo/schemas/landscape.py. *)
From Coq Require Import ZArith List Bool.
From Verif Require Import TopoModel StableSort.
Import ListNotations.
Local Open Scope Z_scope.

(** ** Land graphs *)
(** landscape_graph.py:10-20, LandEdge without start and bandwidth. Road ids are the
    positions of the calls of add_neighbours, since they are drawn by uuid4. Weights are
    floats in the code and integers here. *)
Record road := Rd { rd_id : nat; rd_finish : nat; rd_weight : Z }.
(** landscape_graph.py:87-98, add_neighbours: a call joins two nodes by one road, which is
    appended to the roads of both. [joins] are the calls (node, neighbour, length) in order;
    the nodes are numbered by their positions in LandGraph.nodes. *)
Fixpoint roads_from (k : nat) (joins : list (nat * nat * Z)) (x : nat) : list road :=
  match joins with
  | [] => []
  | (u, v, w) :: r =>
      (if Nat.eqb x u then [Rd k v w] else []) ++ (if Nat.eqb x v then [Rd k u w] else []) ++ roads_from (S k) r x
  end.
Definition roads_of (joins : list (nat * nat * Z)) (x : nat) : list road := roads_from 0 joins x.
(** landscape_graph.py:71-75, roads: a node without roads raises NoAvailableResources *)
Definition all_have_roads (n : nat) (joins : list (nat * nat * Z)) : bool :=
  forallb (fun x => match roads_of joins x with [] => false | _ => true end) (seq 0 n).

(** The last road of the list that leads to [j]. *)
Definition last_road (l : list road) (j : nat) : option road :=
  fold_left (fun acc r => if Nat.eqb (rd_finish r) j then Some r else acc) l None.
(** landscape_graph.py:136-149, _to_adj_matrix: a later road overwrites an earlier one;
    [None] is inf *)
Definition adj_matrix (joins : list (nat * nat * Z)) (i j : nat) : option Z :=
  option_map rd_weight (last_road (roads_of joins i) j).

(** ** landscape.py:239-269, _build_routes *)
Definition matrix (A : Type) := nat -> nat -> A.
Definition mset {A} (m : matrix A) (u v : nat) (x : A) : matrix A :=
  fun a b => if Nat.eqb a u && Nat.eqb b v then x else m a b.
(** landscape.py:245-255: the first hops *)
Definition first_paths (joins : list (nat * nat * Z)) : matrix Z := fun v u =>
  if Nat.eqb v u then 0
  else match adj_matrix joins v u with Some _ => Z.of_nat v | None => -1 end.
(** landscape.py:243, 250-252: the roads; [None] is '-1' *)
Definition road_matrix (joins : list (nat * nat * Z)) : matrix (option nat) := fun v u =>
  if Nat.eqb v u then None
  else match adj_matrix joins v u with
       | Some _ => option_map rd_id (last_road (roads_of joins v) u)
       | None => None
       end.
(** landscape.py:260-265, one comparison *)
Definition shorter (a b c : option Z) : option Z :=
  match a, b with
  | Some x, Some y =>
      if negb (x =? 0) && negb (y =? 0) then
        match c with
        | None => Some (x + y)
        | Some z => if x + y <? z then Some (x + y) else None
        end
      else None
  | _, _ => None
  end.
Definition fw_step (i u : nat) (st : matrix (option Z) * matrix Z) (v : nat) : matrix (option Z) * matrix Z :=
  let '(dist, path) := st in
  match shorter (dist u i) (dist i v) (dist u v) with
  | Some d => (mset dist u v (Some d), mset path u v (path i v))
  | None => (dist, path)
  end.
(** landscape.py:257-265, the three loops *)
Definition fw_row (n i : nat) (st : matrix (option Z) * matrix Z) (u : nat) := fold_left (fw_step i u) (seq 0 n) st.
Definition fw_phase (n : nat) (st : matrix (option Z) * matrix Z) (i : nat) := fold_left (fw_row n i) (seq 0 n) st.
Definition fw (n : nat) (st : matrix (option Z) * matrix Z) := fold_left (fw_phase n) (seq 0 n) st.
(** the distances and the hops; [None] is NoAvailableResources *)
Definition build_routes (n : nat) (joins : list (nat * nat * Z)) : option (matrix (option Z) * matrix Z) :=
  if all_have_roads n joins then Some (fw n (adj_matrix joins, first_paths joins)) else None.

(** ** Routes from the table *)
(** Python's indexing: -1 is the last position. *)
Definition py_index (n : nat) (z : Z) : nat := Z.to_nat (if z <? 0 then Z.of_nat n + z else z).
(** landscape.py:133-136 and 188-191: follow the hops until one is [stop]; [None]: more than
    [fuel] hops *)
Fixpoint follow (fuel : nat) (n : nat) (row : nat -> Z) (stop : nat) (x : Z) : option (list Z) :=
  match fuel with
  | O => None
  | S fuel' =>
      let p := row (py_index n x) in
      if p =? Z.of_nat stop then Some [x; Z.of_nat stop]
      else option_map (cons x) (follow fuel' n row stop p)
  end.
Fixpoint roads_along (n : nat) (road_mx : matrix (option nat)) (l : list Z) : list (option nat) :=
  match l with
  | a :: ((b :: _) as r) => road_mx (py_index n a) (py_index n b) :: roads_along n road_mx r
  | _ => []
  end.
(** landscape.py:124-138, get_route *)
Definition get_route_fuel (fuel : nat) (n : nat) (joins : list (nat * nat * Z)) (path : matrix Z) (from to : nat)
  : option (list (option nat)) :=
  option_map (fun l => rev (roads_along n (road_matrix joins) l)) (follow fuel n (path from) from (Z.of_nat to)).
Definition get_route (n : nat) := get_route_fuel (S n) n.
(** landscape.py:111-122, get_sorted_holders: [holders] are the positions of the nodes of
    the holders, in the order of the dictionary *)
Definition get_sorted_holders (dist : matrix (option Z)) (holders : list nat) (node : nat) : list (Z * nat) :=
  sort_by fst (concat (map (fun i => match dist node i with Some d => [(d, i)] | None => [] end) holders)).

(** ** landscape.py:140-194, _dijkstra and construct_route *)
(** heapq.heappop: the least pair *)
Definition pair_lt (a b : Z * nat) : bool :=
  (fst a <? fst b) || ((fst a =? fst b) && Nat.ltb (snd a) (snd b)).
Fixpoint pop_min (l : list (Z * nat)) : option ((Z * nat) * list (Z * nat)) :=
  match l with
  | [] => None
  | x :: r =>
      match pop_min r with
      | None => Some (x, [])
      | Some (m, rest) => if pair_lt m x then Some (m, x :: rest) else Some (x, m :: rest)
      end
  end.
Definition vset {A} (f : nat -> A) (x : nat) (a : A) : nat -> A := fun y => if Nat.eqb y x then a else f y.
Record dstate := Ds { ds_heap : list (Z * nat); ds_dist : nat -> option Z; ds_path : nat -> Z }.
(** landscape.py:151-159, one road of node [v] *)
Definition relax (avail : list nat) (dist : Z) (v : nat) (st : dstate) (r : road) : dstate :=
  if negb (mem (rd_id r) avail) then st
  else
    let d := dist + rd_weight r in
    if match ds_dist st (rd_finish r) with None => true | Some z => d <? z end then
      Ds ((d, rd_finish r) :: ds_heap st) (vset (ds_dist st) (rd_finish r) (Some d)) (vset (ds_path st) (rd_finish r) (Z.of_nat v))
    else st.
(** landscape.py:145-159, the loop; [None]: more than [fuel] rounds *)
Fixpoint dijkstra_loop (fuel : nat) (joins : list (nat * nat * Z)) (avail : list nat) (st : dstate) : option dstate :=
  match fuel with
  | O => None
  | S fuel' =>
      match pop_min (ds_heap st) with
      | None => Some st
      | Some ((dist, v), rest) =>
          let st1 := Ds rest (ds_dist st) (ds_path st) in
          if match ds_dist st v with None => false | Some z => z <? dist end then dijkstra_loop fuel' joins avail st1
          else dijkstra_loop fuel' joins avail (fold_left (relax avail dist v) (roads_of joins v) st1)
      end
  end.
(** landscape.py:169-183: the rows of the other nodes are not used *)
Definition first_row (joins : list (nat * nat * Z)) (avail : list nat) (v u : nat) : Z :=
  if Nat.eqb v u then 0
  else match adj_matrix joins v u, road_matrix joins v u with
       | Some _, Some id => if mem id avail then Z.of_nat v else -1
       | _, _ => -1
       end.
Definition dijkstra_rounds (joins : list (nat * nat * Z)) (n : nat) : nat :=
  S (S (list_sum (map (fun v => length (roads_of joins v)) (seq 0 n)))).
Definition dijkstra (n : nat) (joins : list (nat * nat * Z)) (avail : list nat) (src : nat) : option dstate :=
  dijkstra_loop (dijkstra_rounds joins n) joins avail
    (Ds [(0, src)] (vset (fun _ => None) src (Some 0)) (first_row joins avail src)).
(** landscape.py:161-194, construct_route *)
Definition construct_route (n : nat) (joins : list (nat * nat * Z)) (avail : list nat) (from to : nat)
  : option (list (option nat)) :=
  match dijkstra n joins avail to with
  | None => None
  | Some st =>
      if ds_path st from =? -1 then Some []
      else option_map (roads_along n (road_matrix joins)) (follow (S n) n (ds_path st) to (Z.of_nat from))
  end.
