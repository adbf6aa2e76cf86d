(** Model of the editing of work graphs: sampo/structurator/prepare_wg_copy.py,
    graph_insertion.py, insert_wu.py, delete_graph_node.py, light_modifications.py,
    sampo/scheduler/utils/obstruction.py and restruct of
    sampo/schemas/structure_estimator.py. A node is identified with its id. The new ids (uuids
    or numbers) are a function of the old one. Cached properties are not modelled. *)
From Coq Require Import ZArith List Bool.
From Verif Require Import TimeModel MomentumModel GraphModel TopoModel TraverseModel.
Import ListNotations.

(** ** prepare_wg_copy.py *)
Definition rename_edge (ren : nat -> nat) (e : edge) : edge := Ed (ren (e_from e)) (ren (e_to e)) (e_lag e) (e_type e).
(** prepare_wg_copy.py:36-51, restore_parents: the edges in the order in which they are
    added. Nodes of the graph are known, so that only the excluded ones are left out. *)
Definition restored_edges (ren : nat -> nat) (w : work_graph) (excluded : list nat) : list edge :=
  concat (map (fun n => if mem n excluded then []
                        else map (rename_edge ren) (filter (fun e => negb (mem (e_from e) excluded)) (edges_to (wg_graph w) n)))
              (wg_nodes w)).
(** prepare_wg_copy.py:54-77, prepare_work_graph_copy: the old ids of the copied nodes and the
    edges between copies. [None]: ValueError, no node is left. The copies of the work units have the same
    requirements, volume and service mark (prepare_wg_copy.py:8-33). *)
Definition prepare_copy (ren : nat -> nat) (w : work_graph) (excluded : list nat) : option (list nat * list edge) :=
  match filter (fun n => negb (mem n excluded)) (wg_nodes w) with
  | [] => None
  | l => Some (l, restored_edges ren w excluded)
  end.
(** the unit of a new node: the one of the old node it is a copy of *)
Definition copied_unit (ren : nat -> nat) (w : work_graph) (other : nat -> work_unit) (m : nat) : work_unit :=
  match find (fun n => Nat.eqb (ren n) m) (wg_nodes w) with
  | Some n => g_unit (wg_graph w) n
  | None => other m
  end.
Definition no_unit : work_unit := WU true [] 0%Z.

(** prepare_wg_copy.py:80-90, new_start_finish, and the constructor of WorkGraph; the copied
    start and finish are looked up, [None] is KeyError *)
Definition rebuild_graph (ren : nat -> nat) (w : work_graph) (known : list nat) (edges : list edge) (unit : nat -> work_unit) : option (run work_graph) :=
  if mem (wg_start w) known && mem (wg_finish w) known
  then Some (make_work_graph (Gr edges unit) (ren (wg_start w)) (ren (wg_finish w)))
  else None.
(** light_modifications.py:6-17, work_graph_ids_simplification, and a copy of the whole graph *)
Definition copy_graph (ren : nat -> nat) (w : work_graph) : option (run work_graph) :=
  match prepare_copy ren w [] with
  | None => None
  | Some (known, edges) => rebuild_graph ren w known edges (copied_unit ren w (fun _ => no_unit))
  end.
(** prepare_wg_copy.py:17-19 with 67-69: the number given to the node at position [i] is
    [new_id or uuid_str()], and 0 is false *)
Definition simplified_id (uuid : nat) (offset i : nat) : nat :=
  if Nat.eqb (offset + i) 0 then uuid else offset + i.

(** ** graph_insertion.py:5-33, graph_in_graph_insertion *)
Definition graph_insertion (renM renS : nat -> nat) (master : work_graph) (ms mf : nat) (slave : work_graph) : option (run work_graph) :=
  match prepare_copy renM master [], prepare_copy renS slave [wg_start slave; wg_finish slave] with
  | Some (km, em), Some (ks, es) =>
      let outs := edges_from (wg_graph slave) (wg_start slave) in
      let ins := edges_to (wg_graph slave) (wg_finish slave) in
      if mem ms km && mem mf km && forallb (fun e => mem (e_to e) ks) outs && forallb (fun e => mem (e_from e) ks) ins then
        rebuild_graph renM master km
          (em ++ es ++ map (fun e => Ed (renM ms) (renS (e_to e)) 0%Z FS) outs ++ map (fun e => Ed (renS (e_from e)) (renM mf) 0%Z FS) ins)
          (copied_unit renM master (copied_unit renS slave (fun _ => no_unit)))
      else None
  | _, _ => None
  end.

(** ** insert_wu.py:6-50, insert_work_unit *)
(** The edges given by the caller: plain nodes or tuples. *)
Inductive links := Nodes (l : list nat) | Tuples (l : list (nat * Z * edge_type)).
(** insert_wu.py:45-50; [None] is IndexError for an empty list *)
Definition reduce_links (l : links) : option (list (nat * Z * edge_type)) :=
  match l with
  | Nodes [] | Tuples [] => None
  | Nodes ns => Some (map (fun n => (n, (-1)%Z, FS)) ns)
  | Tuples ts => Some ts
  end.
Definition insert_work (ren : nat -> nat) (w : work_graph) (new : nat) (unit : work_unit) (parents children : links) : option (run work_graph) :=
  match reduce_links parents, reduce_links children, prepare_copy ren w [] with
  | Some ps, Some cs, Some (known, edges) =>
      if forallb (fun x => mem (fst (fst x)) known) (ps ++ cs) then
        rebuild_graph ren w known
          (edges ++ map (fun x => Ed (ren (fst (fst x))) new (snd (fst x)) (snd x)) ps
                 ++ map (fun x => Ed new (ren (fst (fst x))) (snd (fst x)) (snd x)) cs)
          (fun m => if Nat.eqb m new then unit else copied_unit ren w (fun _ => no_unit) m)
      else None
  | _, _, _ => None
  end.

(** ** obstruction.py:51-66, OneInsertObstruction.apply; the random answers are arguments.
    The graph is changed in place and its nodes are found again. *)
Definition obstruct (w insert : work_graph) (at_node : nat) (pick : list nat -> nat) : run work_graph :=
  let g := wg_graph w in
  let entry := [Ed at_node (wg_start insert) 0%Z FS] in
  let exit := match children g at_node with
              | [] => []
              | cs => [Ed (wg_start insert) (pick cs) 0%Z FS]
              end in
  make_work_graph (Gr (g_edges g ++ g_edges (wg_graph insert) ++ entry ++ exit)
                      (fun n => if mem n (wg_nodes insert) then g_unit (wg_graph insert) n else g_unit g n))
                  (wg_start w) (wg_finish w).

(** ** structure_estimator.py:78-91, restruct: the copied works in order, for each the new
    sub-works (id and unit) that were generated *)
Definition sub_edges (w : work_graph) (subs : nat -> list (nat * work_unit)) (n : nat) : list edge :=
  if u_service (g_unit (wg_graph w) n) then []
  else concat (map (fun s => [Ed n (fst s) 0%Z FS; Ed (fst s) (wg_finish w) 0%Z FS]) (subs n)).
Definition sub_units (w : work_graph) (subs : nat -> list (nat * work_unit)) : list (nat * work_unit) :=
  concat (map (fun n => if u_service (g_unit (wg_graph w) n) then [] else subs n) (wg_nodes w)).
Definition restruct (w : work_graph) (subs : nat -> list (nat * work_unit)) : option (run work_graph) :=
  match prepare_copy (fun n => n) w [] with
  | None => None
  | Some (known, edges) =>
      rebuild_graph (fun n => n) w known (edges ++ concat (map (sub_edges w subs) known))
        (fun m => match find (fun s => Nat.eqb (fst s) m) (sub_units w subs) with
                  | Some s => snd s
                  | None => copied_unit (fun n => n) w (fun _ => no_unit) m
                  end)
  end.

(** ** delete_graph_node.py *)
(** Deletion changes the two edge lists of nodes one by one, so both are kept here. *)
Record two_sided := TS { ts_to : nat -> list edge; ts_from : nat -> list edge }.
Definition sides (edges : list edge) : two_sided :=
  TS (fun n => filter (fun e => Nat.eqb (e_to e) n) edges) (fun n => filter (fun e => Nat.eqb (e_from e) n) edges).
Definition set_at {A} (f : nat -> A) (n : nat) (v : A) : nat -> A := fun m => if Nat.eqb m n then v else f m.
(** graph.py:185-207 on the lists of the node *)
Definition ts_parents (s : two_sided) (n : nat) : list nat := map e_from (filter (fun e => is_dependency (e_type e)) (ts_to s n)).
Definition ts_children (s : two_sided) (n : nat) : list nat := map e_to (filter (fun e => is_dependency (e_type e)) (ts_from s n)).
(** list.remove: the first equal edge (edges are compared by their fields) *)
Definition edge_type_eqb (a b : edge_type) : bool :=
  match a, b with IFS, IFS | FFS, FFS | SS, SS | FF, FF | FS, FS => true | _, _ => false end.
Definition edge_eqb (a b : edge) : bool :=
  Nat.eqb (e_from a) (e_from b) && Nat.eqb (e_to a) (e_to b) && Z.eqb (e_lag a) (e_lag b) && edge_type_eqb (e_type a) (e_type b).
Fixpoint remove_first (e : edge) (l : list edge) : list edge :=
  match l with [] => [] | x :: r => if edge_eqb x e then r else x :: remove_first e r end.
(** a loop over a list from which the loop removes: the position advances in the shorter
    list. The fuel is the length of the list. *)
Fixpoint remove_while_iterating (hit : edge -> bool) (fuel i : nat) (l : list edge) : list edge :=
  match fuel with
  | O => l
  | S fuel' =>
      match nth_error l i with
      | None => l
      | Some e => remove_while_iterating hit fuel' (S i) (if hit e then remove_first e l else l)
      end
  end.
(** graph.py:105-125, add_parents with nodes *)
Definition add_parents (s : two_sided) (c : nat) (ps : list nat) : two_sided :=
  TS (set_at (ts_to s) c (ts_to s c ++ map (fun p => Ed p c 0%Z FS) ps))
     (fold_left (fun f p => set_at f p (f p ++ [Ed p c 0%Z FS])) ps (ts_from s)).
(** delete_graph_node.py:35-52, _node_deletion *)
Definition node_deletion (r : nat) (s : two_sided) : two_sided :=
  let ps := ts_parents s r in
  let cs := ts_children s r in
  let from' := fold_left (fun f p => set_at f p (remove_while_iterating (fun e => Nat.eqb (e_to e) r) (length (f p)) 0 (f p))) ps (ts_from s) in
  let to' := fold_left (fun f c => set_at f c (remove_while_iterating (fun e => Nat.eqb (e_from e) r) (length (f c)) 0 (f c))) cs (ts_to s) in
  fold_left (fun s c => add_parents s c ps) cs (TS to' from').
(** graph.py:147-163 on the lists of the nodes *)
Fixpoint ts_traverse (fuel : nat) (s : two_sided) (visited queue : list nat) : run (list nat) :=
  match fuel with
  | O => Running
  | S fuel' =>
      match queue with
      | [] => Ends (rev visited)
      | v :: q =>
          if existsb (fun e => negb (mem (e_from e) visited)) (ts_to s v) then ts_traverse fuel' s visited (q ++ [v])
          else if mem v visited then ts_traverse fuel' s visited q
          else ts_traverse fuel' s (v :: visited) (q ++ map e_to (ts_from s v))
      end
  end.
(** graph.py:165-183 *)
Definition ts_son (s : two_sided) (n : nat) : option nat := option_map e_to (find (fun e => is_ifs (e_type e)) (ts_from s n)).
Definition ts_parent (s : two_sided) (n : nat) : option nat := option_map e_from (find (fun e => is_ifs (e_type e)) (ts_to s n)).
(** delete_graph_node.py:22-27: from the last work of a chain backwards, each inseparable
    parent in turn is deleted. The parent is looked up before the deletion of its son, which does
    not change the son's own list. The deleted ids are returned too. *)
Fixpoint delete_backwards (fuel : nat) (s : two_sided) (n : nat) : two_sided * list nat :=
  match fuel with
  | O => (s, [])
  | S fuel' =>
      match ts_parent s n with
      | None => (s, [])
      | Some p => let '(s', l) := delete_backwards fuel' (node_deletion p s) p in (s', p :: l)
      end
  end.
(** delete_graph_node.py:5-32, delete_graph_node, and graph.py:479-490, the nodes of the new
    graph after at most [rounds] rounds of the traversal. [None]: KeyError (unknown work, or the start
    or the finish was deleted) or RecursionError. *)
Definition delete_node (ren : nat -> nat) (w : work_graph) (r : nat) (rounds : nat) : option (run (list nat) * two_sided) :=
  match prepare_copy ren w [] with
  | None => None
  | Some (known, edges) =>
      if mem r known then
        let s0 := sides edges in
        let deleted :=
          match ts_son s0 (ren r), ts_parent s0 (ren r) with
          | Some _, None =>
              match chain_of (Gr edges (fun _ => no_unit)) (ren r) with
              | None => None
              | Some chain => Some (delete_backwards (length edges) s0 (last chain (ren r)))
              end
          | _, _ => Some (node_deletion (ren r) s0, [ren r])
          end in
        match deleted with
        | None => None
        | Some (s, l) =>
            if mem (ren (wg_start w)) l || mem (ren (wg_finish w)) l then None
            else Some (ts_traverse rounds s [] [ren (wg_start w)], s)
        end
      else None
  end.
