(** Model of the node orders: sampo/scheduler/heft/prioritization.py,
    sampo/scheduler/lft/prioritization.py, sampo/scheduler/utils/critical_path.py and
    sampo/scheduler/utils/time_computaion.py. *)
From Coq Require Import ZArith List Bool.
From Verif Require Import TimeModel MomentumModel GraphModel StableSort TopoModel HeadModel.
Import ListNotations.
Local Open Scope Z_scope.

(** time_computaion.py:12-32, calculate_working_time_cascade; [est m team] is the
    estimator's answer for the work of [m]. [None] is RecursionError. *)
Definition working_time_cascade (g : graph) (est : nat -> list worker -> Z) (n : nat)
           (team : list worker) : option Z :=
  if is_son g n then Some 0
  else match chain_of g n with
       | None => None
       | Some c => Some (fold_left (fun t m => tadd t (est m team)) c 0)
       end.
(** time_computaion.py:67-95, work_priority, in halves: the average is not rounded, so
    twice the value (with PRIORITY_DELTA = 1) is an integer. *)
Definition work_priority (g : graph) (est : nat -> list worker -> Z) (n : nat) : option Z :=
  let team f := map (fun r => Wk 0 (r_kind r) (f r)) (u_reqs (g_unit g n)) in
  match working_time_cascade g est n (team r_min), working_time_cascade g est n (team r_max) with
  | Some a, Some b => Some (tadd a b + 2)
  | _, _ => None
  end.

(** critical_path.py:17-21: the edges (finish, start, weight) sorted as tuples. The weight
    is a function of the finish, so sorting by finish and start is enough. *)
Definition fb_edges (nodes : list nat) (weights : nat -> Z) (parent_ids : nat -> list nat)
  : list (nat * nat * Z) :=
  sort_by (fun e => Z.of_nat (fst (fst e)))
    (sort_by (fun e => Z.of_nat (snd (fst e)))
       (concat (map (fun start => map (fun finish => (finish, start, weights finish))
                                      (filter (fun finish => mem finish nodes) (parent_ids start)))
                    nodes))).
Definition fupd (f : nat -> Z) (k : nat) (v : Z) : nat -> Z :=
  fun n => if Nat.eqb n k then v else f n.
(** critical_path.py:33-46, the relaxation of all edges: path weights, current finish,
    its weight, and whether something changed *)
Fixpoint relax (es : list (nat * nat * Z)) (pw : nat -> Z) (cur : nat) (curw : Z) (changed : bool)
  : (nat -> Z) * nat * Z * bool :=
  match es with
  | [] => (pw, cur, curw, changed)
  | (finish, start, weight) :: r =>
      let pw1 := if Nat.eqb cur finish then pw else fupd pw cur curw in
      let curw1 := if Nat.eqb cur finish then curw else pw1 finish in
      let new_weight := pw1 start + weight in
      if new_weight <? curw1 then relax r pw1 finish new_weight true
      else relax r pw1 finish curw1 changed
  end.
(** critical_path.py:30-54, the rounds *)
Fixpoint fb_rounds (k : nat) (es : list (nat * nat * Z)) (pw : nat -> Z) : nat -> Z :=
  match k, es with
  | S k', (finish, _, _) :: _ =>
      let '(pw1, cur, curw, changed) := relax es pw finish (pw finish) false in
      if changed then fb_rounds k' es (fupd pw1 cur curw) else pw1
  | _, _ => pw
  end.
(** critical_path.py:10-54, ford_bellman *)
Definition ford_bellman (nodes : list nat) (weights : nat -> Z) (parent_ids : nat -> list nat)
  : nat -> Z :=
  fb_rounds (length nodes) (fb_edges nodes weights parent_ids) (fun _ => 0).

(** heft/prioritization.py:10-28, prioritization_nodes; [None] is RecursionError *)
Definition heft_weight (g : graph) (est : nat -> list worker -> Z) (n : nat) : Z :=
  match work_priority g est n with Some w => - w | None => 0 end.
Definition has_priority (g : graph) (est : nat -> list worker -> Z) (n : nat) : bool :=
  match work_priority g est n with Some _ => true | None => false end.
Definition heft_group (g : graph) (est : nat -> list worker -> Z) (parent_ids : nat -> list nat)
           (nodes : list nat) : option (list nat) :=
  match nodes with
  | [_] => Some nodes
  | _ =>
      if forallb (has_priority g est) nodes
      then Some (sort_by (ford_bellman nodes (heft_weight g est) parent_ids) nodes)
      else None
  end.
(** heft/prioritization.py:31-47, prioritization *)
Definition heft_order (g : graph) (est : nat -> list worker -> Z) (prio : nat -> Z)
           (parent_ids : nat -> list nat) (nodes : list nat) : option (list nat) :=
  match all_some (map (fun p => heft_group g est parent_ids (priority_group prio nodes p))
                      (priority_values prio nodes)) with
  | Some ls => Some (concat ls)
  | None => None
  end.

(** Python's min(..., key=): the first element with the smallest key *)
Definition first_min (key : nat -> Z) (l : list nat) : option nat :=
  match l with
  | [] => None
  | x :: r => Some (fold_left (fun m y => if key y <? key m then y else m) r x)
  end.
(** critical_path.py:88-107, the loop of _critical_path. [None] is the ValueError of min
    over an empty set, or running out of fuel. *)
Fixpoint critical_loop (fuel : nat) (g : graph) (cum : nat -> Z) (child_ids : nat -> list nat)
         (n : nat) : option (list nat) :=
  match fuel with
  | O => None
  | S fuel' =>
      match children g n with
      | [] => Some []
      | _ =>
          match first_min cum (child_ids n) with
          | None => None
          | Some c =>
              match critical_loop fuel' g cum child_ids c with
              | None => None
              | Some r => Some (n :: r)
              end
          end
      end
  end.
(** critical_path.py:79-107, _critical_path *)
Definition critical_path (g : graph) (nodes : list nat) (weights : nat -> Z)
           (parent_ids child_ids : nat -> list nat) : option (list nat) :=
  let cum := ford_bellman nodes weights parent_ids in
  match first_min cum nodes with
  | None => None
  | Some n => critical_loop (S (length nodes)) g cum child_ids n
  end.

(** lft/prioritization.py:11-24, map_lft_lst: (latest finish, latest start) of each head
    node, newest entry first. [None] is IndexError. *)
Definition lft_table := list (nat * (Z * Z)).
Fixpoint lft_get (t : lft_table) (n : nat) : option (Z * Z) :=
  match t with
  | [] => None
  | (k, v) :: r => if Nat.eqb k n then Some v else lft_get r n
  end.
Definition known_lst (t : lft_table) (ids : list nat) : list Z :=
  concat (map (fun c => match lft_get t c with Some (_, lst) => [lst] | None => [] end) ids).
Definition min_default0 (l : list Z) : Z :=
  match l with [] => 0 | x :: r => fold_left Z.min r x end.
(** the loop over the reversed list (the last node excepted); the argument is reversed *)
Fixpoint lft_loop (child_ids : nat -> list nat) (dur : nat -> Z) (rev_nodes : list nat) (t : lft_table)
  : lft_table :=
  match rev_nodes with
  | [] => t
  | n :: r =>
      let lft := min_default0 (known_lst t (child_ids n)) in
      lft_loop child_ids dur r ((n, (lft, lft - dur n)) :: t)
  end.
Definition map_lft_lst (nodes : list nat) (child_ids : nat -> list nat) (dur : nat -> Z)
  : option lft_table :=
  match rev nodes with
  | [] => None
  | last :: r =>
      let total := fold_right Z.add 0 (map dur nodes) in
      Some (lft_loop child_ids dur r [(last, (total, total - dur last))])
  end.
Definition lft_of (t : lft_table) (n : nat) : Z :=
  match lft_get t n with Some (f, _) => f | None => 0 end.
(** lft/prioritization.py:52-66 with 27-49, lft_prioritization with
    lft_prioritization_core *)
Definition lft_order (prio : nat -> Z) (child_ids : nat -> list nat) (dur : nat -> Z)
           (nodes : list nat) : option (list nat) :=
  match map_lft_lst nodes child_ids dur with
  | None => None
  | Some t => Some (concat (map (fun p => sort_by (lft_of t) (priority_group prio nodes p))
                                (priority_values prio nodes)))
  end.

(** lft/prioritization.py:78-107, the sampling. [pick k eligibles] is the random choice of
    the k-th round: the weights are positive, so any of them may be chosen. The index of a
    priority group orders as the priority itself. [None] is the ValueError of min over no
    eligible node, or running out of fuel. *)
Section Sampling.
  Variable prio : nat -> Z.
  Variable parent_ids child_ids : nat -> list nat.
  Variable pick : nat -> list nat -> nat.
  Definition add_new (xs l : list nat) : list nat :=
    fold_left (fun acc x => if mem x acc then acc else acc ++ [x]) xs l.
  Fixpoint sample_loop (fuel : nat) (candidates selected : list nat) : option (list nat) :=
    match candidates with
    | [] => Some selected
    | _ =>
        match fuel with
        | O => None
        | S fuel' =>
            let eligible :=
              filter (fun n => forallb (fun p => mem p selected) (parent_ids n)) candidates in
            match first_min prio eligible with
            | None => None
            | Some m =>
                let best := filter (fun n => prio n =? prio m) eligible in
                let s := pick (length selected) best in
                sample_loop fuel'
                  (add_new (child_ids s) (filter (fun n => negb (Nat.eqb n s)) candidates))
                  (selected ++ [s])
            end
        end
    end.
  (** lft/prioritization.py:69-107, lft_randomized_prioritization_core: the head nodes
      sorted by their index in the sampled list; [None] also if one is missing *)
  Fixpoint index_of (l : list nat) (n : nat) : nat :=
    match l with
    | [] => 0%nat
    | x :: r => if Nat.eqb x n then 0%nat else S (index_of r n)
    end.
  Definition lft_randomized (nodes : list nat) : option (list nat) :=
    match nodes with
    | [] => None
    | first :: _ =>
        match sample_loop (S (length nodes)) [first] [] with
        | None => None
        | Some l =>
            if forallb (fun n => mem n l) nodes
            then Some (sort_by (fun n => Z.of_nat (index_of l n)) nodes) else None
        end
    end.
End Sampling.
