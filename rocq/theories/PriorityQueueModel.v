(** Model of PriorityQueue (utilities/priority_queue.py) over sortedcontainers.SortedKeyList.
    Values are numbers; their keys are integers. The list keeps each pair (key, value) under the
    key the comparator gave when the pair was added. *)
From Coq Require Import ZArith List Bool Arith.
Import ListNotations.
Local Open Scope Z_scope.

Definition entry : Type := Z * (Z * nat).
Definition queue := list entry.
(** priority_queue.py:11, comparator *)
Definition comparator (descending : bool) (k : Z) : Z := if descending then - k else k.
(** SortedKeyList.add: after the pairs with the same key *)
Fixpoint insert_right (e : entry) (q : queue) : queue :=
  match q with [] => [e] | x :: r => if fst x <=? fst e then x :: insert_right e r else e :: q end.
Section Queue.
  Variable descending : bool.
  (** key_getter, as it answers at the time of the call *)
  Variable key : nat -> Z.
  Definition entry_of (v : nat) : entry := (comparator descending (key v), (key v, v)).
  (** priority_queue.py:19-20 *)
  Definition add (v : nat) (q : queue) : queue := insert_right (entry_of v) q.
  (** priority_queue.py:10-13; a stable sort is the same as adding one after the other *)
  Definition new (l : list nat) : queue := fold_left (fun q v => add v q) l [].
  (** priority_queue.py:22-23; [None] is IndexError *)
  Definition extract_extremum (q : queue) : option (nat * queue) :=
    match rev q with [] => None | (_, (_, v)) :: r => Some (v, rev r) end.
  (** SortedKeyList.discard: the first equal pair under the key of the comparator, if there is one *)
  Definition same (e e' : entry) : bool := (fst e =? fst e') && (fst (snd e) =? fst (snd e')) && Nat.eqb (snd (snd e)) (snd (snd e')).
  Fixpoint discard (e : entry) (q : queue) : queue :=
    match q with [] => [] | x :: r => if same e x then r else x :: discard e r end.
  (** priority_queue.py:25-27 *)
  Definition replace (old new : nat) (q : queue) : queue := add new (discard (entry_of old) q).
  (** priority_queue.py:29-30 *)
  Definition decrease_key (v : nat) (q : queue) : queue := replace v v q.

  (** A history of calls and their answers. *)
  Inductive op := Add (v : nat) | Extract | Replace (old new : nat) | Decrease (v : nat) | Length.
  Inductive answer := Done | Value (v : nat) | IndexError | Number (n : nat).
  Definition call (o : op) (q : queue) : answer * queue :=
    match o with
    | Add v => (Done, add v q)
    | Extract => match extract_extremum q with Some (v, q') => (Value v, q') | None => (IndexError, q) end
    | Replace a b => (Done, replace a b q)
    | Decrease v => (Done, decrease_key v q)
    | Length => (Number (length q), q)
    end.
  Fixpoint run (ops : list op) (q : queue) : list answer * queue :=
    match ops with
    | [] => ([], q)
    | o :: r => let (a, q') := call o q in let (l, q'') := run r q' in (a :: l, q'')
    end.
End Queue.
