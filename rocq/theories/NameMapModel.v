(** Model of utilities/name_mapper.py and of the dictionaries of utilities/collections_util.py.
    Names, keys and values are numbers; a dictionary is the list of its pairs in order of insertion. *)
From Coq Require Import List Bool Arith.
Import ListNotations.

Definition dict := list (nat * nat).
(** d[k] = v: an old key keeps its place *)
Fixpoint assign (d : dict) (k v : nat) : dict :=
  match d with [] => [(k, v)] | (k', v') :: r => if Nat.eqb k k' then (k', v) :: r else (k', v') :: assign r k v end.
(** d[k] if k in d *)
Fixpoint lookup (d : dict) (k : nat) : option nat :=
  match d with [] => None | (k', v) :: r => if Nat.eqb k k' then Some v else lookup r k end.
(** collections_util.py:25-33, build_index, a dictionary comprehension *)
Definition build_index {T} (items : list T) (key_getter value_getter : T -> nat) : dict :=
  fold_left (fun d x => assign d (key_getter x) (value_getter x)) items [].
(** collections_util.py:36-37 *)
Definition reverse_dictionary (d : dict) : dict := build_index d snd fst.
(** collections_util.py:40-43; [None] if the loop ends *)
Fixpoint first {T} (l : list T) (condition : T -> bool) : option T :=
  match l with [] => None | x :: r => if condition x then Some x else first r condition end.

(** name_mapper.py:7-14 and 17-24; [rows] are the columns task_name and unique_task_name *)
Definition get_task_name_unique_mapping (rows : list (nat * nat)) : dict := build_index rows fst snd.
Definition get_inverse_task_name_mapping (rows : list (nat * nat)) : dict := build_index rows snd fst.
(** name_mapper.py:77-78, DictNameMapper.__getitem__ *)
Definition getitem (source : dict) (item : nat) : nat := match lookup source item with Some v => v | None => item end.
