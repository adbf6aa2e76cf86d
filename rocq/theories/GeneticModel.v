(** Model of the genetic operators on work orders and resources
    (sampo/scheduler/genetic/operators.py). Works are numbered by their index; every answer
    of the random generator is an argument: [randint k lo hi] is the answer of the [k]-th
    call of randint. *)
From Coq Require Import ZArith List Bool Arith.
From Verif Require Import TopoModel.
Import ListNotations.

(** ** Order *)
(** operators.py:401-418, is_chromosome_order_correct *)
Fixpoint order_correct_loop (parents : nat -> list nat) (prio : nat -> Z) (used order : list nat) : bool :=
  match order with
  | [] => true
  | w :: rest =>
      if negb (forallb (fun p => mem p (w :: used)) (parents w)) then false
      else if existsb (fun p => Z.ltb (prio w) (prio p)) (parents w) then false
      else order_correct_loop parents prio (w :: used) rest
  end.
Definition order_correct (parents : nat -> list nat) (prio : nat -> Z) (order : list nat) : bool :=
  order_correct_loop parents prio [] order.

(** operators.py:457-463, get_order_part *)
Definition get_order_part (order other : list nat) : list nat :=
  filter (fun n => negb (mem n order)) other.
Definition last_n (k : nat) (l : list nat) : list nat := skipn (length l - k) l.
(** operators.py:518-530, two_point_order_crossover after the two draws; [None] is the
    ValueError of assigning a part of another length *)
Definition crossover (child other : list nat) (amount head : nat) : option (list nat) :=
  if Nat.ltb 1 amount then
    let tail := amount - head in
    let part := get_order_part (firstn head child ++ last_n tail child) other in
    if Nat.eqb (length part) (length child - tail - head)
    then Some (firstn head child ++ part ++ last_n tail child) else None
  else Some child.
Section Mate.
  Variable randint : nat -> nat -> nat -> nat.
  (** operators.py:518-521, the draws; calls [2k] and [2k+1] *)
  Definition two_point_crossover (k : nat) (child other : list nat) (m : nat) : option (list nat) :=
    let amount := randint (2 * k) m (3 * m) in
    crossover child other amount (randint (2 * k + 1) 1 (amount - 1)).
  (** operators.py:480-486, mate_parts *)
  Definition mate_parts (k : nat) (part1 part2 : list nat) : option (list nat * list nat) :=
    let m := Nat.div (length part1) 4 in
    match two_point_crossover (2 * k) part1 part2 m, two_point_crossover (2 * k + 1) part2 part1 m with
    | Some c1, Some c2 => Some (c1, c2)
    | _, _ => None
    end.
  (** operators.py:494-501, the loop of mate_scheduling_order. The start of the group is
      never advanced, so the whole prefixes are mated. The parts are views of the orders. *)
  Fixpoint mate_loop (prio : nat -> Z) (steps : list nat) (o1 o2 : list nat) (cur : Z) : option (list nat * list nat) :=
    match steps with
    | [] => Some (o1, o2)
    | i :: rest =>
        let p := prio (nth i o1 0) in
        if Z.eqb p cur then mate_loop prio rest o1 o2 cur
        else match mate_parts i (firstn i o1) (firstn i o2) with
             | None => None
             | Some (c1, c2) => mate_loop prio rest (c1 ++ skipn i o1) (c2 ++ skipn i o2) p
             end
    end.
  (** operators.py:466-503, mate_scheduling_order; [None] is IndexError or ValueError *)
  Definition mate_order (prio : nat -> Z) (o1 o2 : list nat) : option (list nat * list nat) :=
    match o1 with
    | [] => None
    | w :: _ => mate_loop prio (seq 0 (length o1)) o1 o2 (prio w)
    end.
End Mate.

(** numpy.where(mask)[0] *)
Definition positions {A} (f : A -> bool) (l : list A) : list nat :=
  map fst (filter (fun x => f (snd x)) (combine (seq 0 (length l)) l)).
(** numpy.delete, numpy.insert *)
Definition delete_at (i : nat) (l : list nat) : list nat := firstn i l ++ skipn (S i) l.
Definition insert_at (i w : nat) (l : list nat) : list nat := firstn i l ++ w :: skipn i l.
Section Mutate.
  (** [selected k j]: the [j]-th draw below mutpb in call [k]; [shuffle]; [pick k s l] the
      draw of [rand.choices] from [l] in step [s] of call [k] *)
  Variable selected : nat -> nat -> bool.
  Variable shuffle : nat -> list nat -> list nat.
  Variable pick : nat -> nat -> list nat -> nat.
  Variable parents children : nat -> list nat.
  (** operators.py:551-552 *)
  Definition max_parent (order : list nat) (i w : nat) : nat :=
    S (fold_left Nat.max (positions (fun x => mem x (parents w)) (firstn i order)) 0).
  (** operators.py:556-557 *)
  Definition min_child (order : list nat) (i w : nat) : nat :=
    fold_left Nat.min (positions (fun x => mem x (children w)) (skipn (S i) order)) (length order - 2 - i) + i.
  (** operators.py:546-577, one iteration *)
  Definition mutate_step (k s : nat) (order : list nat) (i w : nat) (indexes : list nat) : list nat * list nat :=
    let ip := max_parent order i w in
    let ic := min_child order i w in
    if Nat.eqb ip ic then (order, indexes)
    else
      let shifted := map (fun j => if Nat.ltb i j then j - 1 else j) indexes in
      let choices := seq ip (i - ip) ++ seq (S i) (ic - i) in
      let new_i := pick k s choices in
      (insert_at new_i w (delete_at i order), map (fun j => if Nat.leb new_i j then j + 1 else j) shifted).
  Fixpoint mutate_steps (k s : nat) (order works indexes : list nat) : option (list nat) :=
    match works with
    | [] => Some order
    | w :: ws =>
        match indexes with
        | [] => None
        | i :: is => let (order', is') := mutate_step k s order i w is in mutate_steps k (S s) order' ws is'
        end
    end.
  (** operators.py:533-577, mutate_scheduling_order_core *)
  Definition mutate_core (k : nat) (order : list nat) : option (list nat) :=
    let indexes := shuffle k (map S (filter (selected k) (seq 0 (length order - 2)))) in
    mutate_steps k 0 order (map (fun i => nth i order 0) indexes) indexes.
  (** operators.py:600-609; the slices are views of the order *)
  Fixpoint mutate_groups (prio : nat -> Z) (steps order : list nat) (cur : Z) (start : nat) : option (list nat) :=
    match steps with
    | [] => Some order
    | i :: rest =>
        let p := prio (nth i order 0) in
        if Z.eqb p cur then mutate_groups prio rest order cur start
        else match mutate_core i (skipn start (firstn i order)) with
             | None => None
             | Some part => mutate_groups prio rest (firstn start order ++ part ++ skipn i order) p i
             end
    end.
  (** operators.py:580-611, mutate_scheduling_order *)
  Definition mutate_order (prio : nat -> Z) (order : list nat) : option (list nat) :=
    match order with
    | [] => None
    | w :: _ => mutate_groups prio (seq 0 (length order)) order (prio w) 0
    end.
End Mutate.
