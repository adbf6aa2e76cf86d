(** Model of sampo/scheduler/topological/base.py and sampo/utilities/priority.py. *)
From Coq Require Import ZArith List Bool.
From Verif Require Import TimeModel MomentumModel GraphModel StableSort.
Import ListNotations.

Definition mem (x : nat) (l : list nat) : bool := existsb (Nat.eqb x) l.

(** A dictionary from items to sets of items. *)
Definition deps := list (nat * list nat).

(** base.py:82-84, copy without self-dependencies *)
Definition drop_self (d : deps) : deps :=
  map (fun x => (fst x, filter (fun e => negb (Nat.eqb e (fst x))) (snd x))) d.
(** base.py:87-96, items that occur only as dependencies *)
Definition extra_items (d : deps) : list nat :=
  nodup Nat.eq_dec (filter (fun v => negb (mem v (map fst d))) (concat (map snd d))).
Definition prepared (d : deps) : deps :=
  drop_self d ++ map (fun i => (i, [])) (extra_items (drop_self d)).

(** base.py:97-106, the loop; the levels are collected by the caller. The number of
    rounds is bounded by [fuel]. *)
Inductive toposorted := Levels (ls : list (list nat)) | Circular | OutOfFuel.
Definition ready (d : deps) : list nat :=
  map fst (filter (fun x => match snd x with [] => true | _ => false end) d).
Definition minus (ordered : list nat) (d : deps) : deps :=
  map (fun x => (fst x, filter (fun e => negb (mem e ordered)) (snd x)))
      (filter (fun x => negb (mem (fst x) ordered)) d).
Fixpoint topo_loop (fuel : nat) (d : deps) : toposorted :=
  match fuel with
  | O => OutOfFuel
  | S fuel' =>
      match ready d with
      | [] => match d with [] => Levels [] | _ => Circular end
      | ordered =>
          match topo_loop fuel' (minus ordered d) with
          | Levels ls => Levels (ordered :: ls)
          | r => r
          end
      end
  end.
(** base.py:69-106, toposort *)
Definition toposort (d : deps) : toposorted :=
  match d with
  | [] => Levels []
  | _ => topo_loop (S (length (prepared d))) (prepared d)
  end.

(** priority.py:31-35, extract_priority_groups_from_nodes followed by sorting by priority
    (base.py:54): the groups in ascending order of priority *)
Definition priority_values (prio : nat -> Z) (nodes : list nat) : list Z :=
  sort_by (fun z => z) (nodup Z.eq_dec (map prio nodes)).
Definition priority_group (prio : nat -> Z) (nodes : list nat) (p : Z) : list nat :=
  filter (fun n => Z.eqb (prio n) p) nodes.

(** base.py:41-66, _topological_sort. [parents_of] is node_id2parent_ids; [shuffle] is
    the order in which the set of a level is listed. [None] is CircularDependencyError. *)
Section Sort.
  Variable prio : nat -> Z.
  Variable parents_of : nat -> list nat.
  Variable shuffle : list nat -> list nat.
  Definition group_deps (group : list nat) : deps :=
    map (fun k => (k, filter (fun p => mem p group) (parents_of k))) group.
  Fixpoint sort_groups (nodes : list nat) (ps : list Z) : option (list nat) :=
    match ps with
    | [] => Some []
    | p :: r =>
        match toposort (group_deps (priority_group prio nodes p)) with
        | Levels ls =>
            match sort_groups nodes r with
            | Some l => Some (concat (map shuffle ls) ++ l)
            | None => None
            end
        | _ => None
        end
    end.
  Definition topological_sort (nodes : list nat) : option (list nat) :=
    sort_groups nodes (priority_values prio nodes).
End Sort.

(** priority.py:5-14, update_priority. The priorities are a function of the node; [None]
    is RecursionError. The set [visited] is never read. *)
Fixpoint update_priority (fuel : nat) (g : graph) (n : nat) (v : Z) (prio : nat -> Z)
  : option (nat -> Z) :=
  match fuel with
  | O => None
  | S fuel' =>
      fold_left (fun acc p => match acc with
                              | None => None
                              | Some f => update_priority fuel' g p v f
                              end)
                (parents g n)
                (Some (fun m => if Nat.eqb m n then Z.min (prio m) v else prio m))
  end.
(** priority.py:17-28, check_and_correct_priorities; [depth] bounds the recursion *)
Definition correct_node (depth : nat) (g : graph) (n : nat) (prio : nat -> Z) : option (nat -> Z) :=
  fold_left (fun acc p => match acc with
                          | None => None
                          | Some f => if Z.ltb (f n) (f p) then update_priority depth g p (f n) f
                                      else Some f
                          end)
            (parents g n) (Some prio).
Definition check_and_correct (depth : nat) (g : graph) (nodes : list nat) (prio : nat -> Z)
  : option (nat -> Z) :=
  fold_left (fun acc n => match acc with
                          | None => None
                          | Some f => correct_node depth g n f
                          end) nodes (Some prio).
