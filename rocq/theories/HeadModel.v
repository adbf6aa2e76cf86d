(** Model of sampo/scheduler/utils/__init__.py:57-122, the collapsing of inseparable
    chains to their head nodes. *)
From Coq Require Import ZArith List Bool.
From Verif Require Import TimeModel MomentumModel GraphModel StableSort TopoModel.
Import ListNotations.

(** graph.py:144-145, is_inseparable_son *)
Definition is_son (g : graph) (n : nat) : bool :=
  match inseparable_parent g n with Some _ => true | None => false end.
(** utils/__init__.py:84 *)
Definition heads (g : graph) (nodes : list nat) : list nat :=
  filter (fun n => negb (is_son g n)) nodes.

(** [None] in a list of results is an exception. *)
Fixpoint all_some {A} (l : list (option A)) : option (list A) :=
  match l with
  | [] => Some []
  | Some a :: r => match all_some r with Some l' => Some (a :: l') | None => None end
  | None :: _ => None
  end.

(** utils/__init__.py:89, node2inseparable_parent: pairs (chain member, head) in the order
    in which they are entered; lookup finds the last one. *)
Definition chain_entries (g : graph) (n : nat) : option (list (nat * nat)) :=
  match chain_of g n with
  | Some c => Some (map (fun m => (m, n)) c)
  | None => None
  end.
Definition head_entries (g : graph) (hs : list nat) : option (list (nat * nat)) :=
  match all_some (map (chain_entries g) hs) with
  | Some l => Some (concat l)
  | None => None
  end.
Fixpoint entry_get (l : list (nat * nat)) (m : nat) : option nat :=
  match l with
  | [] => None
  | (k, v) :: r =>
      match entry_get r m with
      | Some x => Some x
      | None => if Nat.eqb k m then Some v else None
      end
  end.

(** utils/__init__.py:95-100 and 106-111: [neighbours] is parents or children. The sets
    become lists without repetition. *)
Definition connections (g : graph) (entries : list (nat * nat)) (neighbours : nat -> list nat)
           (n : nat) : option (list nat) :=
  match chain_of g n with
  | None => None
  | Some c =>
      match all_some (map (entry_get entries) (concat (map neighbours c))) with
      | None => None
      | Some l => Some (filter (fun h => negb (Nat.eqb h n)) (nodup Nat.eq_dec l))
      end
  end.
Definition connection_map (g : graph) (entries : list (nat * nat)) (neighbours : nat -> list nat)
           (hs : list nat) : option deps :=
  all_some (map (fun n => match connections g entries neighbours n with
                          | Some l => Some (n, l)
                          | None => None
                          end) hs).

(** utils/__init__.py:115, toposort_flatten(..., sort=True) of the toposort library, whose
    algorithm is the one copied in topological/base.py:69-106; sorted by identifier. *)
Inductive head_result := Heads (order : list nat) (parent_ids child_ids : deps) | HeadCycle | HeadCrash.
Definition sort_ids (l : list nat) : list nat := sort_by Z.of_nat l.
(** utils/__init__.py:57-122, get_head_nodes_with_connections_mappings_nodes *)
Definition head_nodes (g : graph) (nodes : list nat) : head_result :=
  let hs := heads g nodes in
  match head_entries g hs with
  | None => HeadCrash
  | Some entries =>
      match connection_map g entries (parents g) hs, connection_map g entries (children g) hs with
      | Some ps, Some cs =>
          match toposort ps with
          | Levels ls => Heads (concat (map sort_ids ls)) ps cs
          | Circular => HeadCycle
          | OutOfFuel => HeadCrash
          end
      | _, _ => HeadCrash
      end
  end.

(** Looking up the mappings. *)
Fixpoint ids_of (d : deps) (n : nat) : list nat :=
  match d with
  | [] => []
  | (k, l) :: r => if Nat.eqb k n then l else ids_of r n
  end.
