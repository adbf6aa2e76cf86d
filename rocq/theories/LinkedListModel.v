(** Model of sampo/utilities/linked_list.py. Node objects live in a heap: a list of cells
    (value, next), the address of a node being its position. [None] as a result is an
    exception (AttributeError on None). *)
From Coq Require Import ZArith List Bool Arith.
Import ListNotations.

Section LinkedList.
  Variable V : Type.
  (** the values' own comparison with ==; its answers are arbitrary *)
  Variable veq : V -> V -> bool.

  (** linked_list.py:7-10 *)
  Notation cell := (V * option nat)%type.
  (** linked_list.py:53-57: _root, _tail, _len *)
  Record llist := LL { ll_heap : list cell; ll_root : option nat; ll_tail : option nat; ll_len : Z }.
  (** linked_list.py:13-17: _node, _prev *)
  Record iter := It { it_node : option nat; it_prev : option nat }.

  Definition next_of (h : list cell) (a : nat) : option (option nat) :=
    match nth_error h a with Some (_, n) => Some n | None => None end.
  Fixpoint set_next (h : list cell) (a : nat) (n : option nat) : list cell :=
    match h, a with
    | [], _ => []
    | (v, _) :: r, O => (v, n) :: r
    | c :: r, S a' => c :: set_next r a' n
    end.

  (** The comparison [==] that @dataclass generates (linked_list.py:7): tuples (value, next)
      are compared, elements first by identity and then by their own [==]. The depth is
      bounded by the number of nodes (Python's recursion limit is not modelled). *)
  Fixpoint same_node (fuel : nat) (h : list cell) (a b : nat) : option bool :=
    match fuel with
    | O => None
    | S f =>
        if Nat.eqb a b then Some true
        else match nth_error h a, nth_error h b with
             | Some (v, n), Some (w, m) =>
                 if negb (veq v w) then Some false
                 else match n, m with
                      | None, None => Some true
                      | Some x, Some y => same_node f h x y
                      | _, _ => Some false
                      end
             | _, _ => None
             end
    end.

  (** linked_list.py:53-60, LinkedList() *)
  Definition ll_empty : llist := LL [] None None 0.
  (** linked_list.py:62-70, append *)
  Definition ll_append (l : llist) (v : V) : option llist :=
    let a := length (ll_heap l) in
    match ll_root l with
    | None => Some (LL (ll_heap l ++ [(v, None)]) (Some a) (Some a) (ll_len l + 1))
    | Some r =>
        match ll_tail l with
        | None => None
        | Some t => Some (LL (set_next (ll_heap l) t (Some a) ++ [(v, None)]) (Some r) (Some a) (ll_len l + 1))
        end
    end.
  (** linked_list.py:53-60, LinkedList(iterable) *)
  Fixpoint ll_extend (l : llist) (vs : list V) : option llist :=
    match vs with
    | [] => Some l
    | v :: r => match ll_append l v with Some l' => ll_extend l' r | None => None end
    end.
  Definition ll_of (vs : list V) : option llist := ll_extend ll_empty vs.

  (** linked_list.py:85-86, iterator *)
  Definition ll_iterator (l : llist) : iter := It (ll_root l) None.
  (** linked_list.py:27-30, next *)
  Definition it_next (l : llist) (it : iter) : option iter :=
    match it_node it with
    | None => None
    | Some a => match next_of (ll_heap l) a with Some n => Some (It n (Some a)) | None => None end
    end.
  (** linked_list.py:32-33, get().value *)
  Definition it_value (l : llist) (it : iter) : option V :=
    match it_node it with
    | None => None
    | Some a => match nth_error (ll_heap l) a with Some (v, _) => Some v | None => None end
    end.
  (** linked_list.py:38-50, remove *)
  Definition it_remove (l : llist) (it : iter) : option (llist * iter) :=
    match it_node it with
    | None => None
    | Some a =>
        match match ll_root l with
              | None => Some false
              | Some r => same_node (S (length (ll_heap l))) (ll_heap l) a r
              end with
        | None => None
        | Some true =>
            match ll_root l with
            | None => None
            | Some r =>
                match next_of (ll_heap l) r with
                | None => None
                | Some n => Some (LL (ll_heap l) n (ll_tail l) (ll_len l - 1), It n (it_prev it))
                end
            end
        | Some false =>
            match next_of (ll_heap l) a, it_prev it with
            | Some n, Some p =>
                Some (LL (set_next (ll_heap l) p n) (ll_root l) (ll_tail l) (ll_len l - 1), It n (it_prev it))
            | _, _ => None
            end
        end
    end.

  (** linked_list.py:72-80, remove_if; the condition may have a state. [fuel] bounds the
      iterations of the while loop. *)
  Fixpoint remove_loop {S0} (fuel : nat) (cond : S0 -> V -> bool * S0) (s : S0) (l : llist) (it : iter)
    : option (llist * S0) :=
    match fuel with
    | O => None
    | S f =>
        match it_node it with
        | None => Some (l, s)
        | Some _ =>
            match it_value l it with
            | None => None
            | Some v =>
                let (b, s') := cond s v in
                if b then
                  match it_remove l it with
                  | Some (l', it') => remove_loop f cond s' l' it'
                  | None => None
                  end
                else
                  match it_next l it with
                  | Some it' => remove_loop f cond s' l it'
                  | None => None
                  end
            end
        end
    end.
  Definition remove_if {S0} (cond : S0 -> V -> bool * S0) (s : S0) (l : llist) : option (llist * S0) :=
    remove_loop (S (length (ll_heap l))) cond s l (ll_iterator l).

  (** linked_list.py:19-22 and 88-89, iteration over the list; the values yielded *)
  Fixpoint iter_loop (fuel : nat) (l : llist) (it : iter) : option (list V) :=
    match fuel with
    | O => None
    | S f =>
        match it_node it with
        | None => None
        | Some a =>
            match nth_error (ll_heap l) a with
            | None => None
            | Some (_, None) => Some []
            | Some (v, Some _) =>
                match it_next l it with
                | None => None
                | Some it' => match iter_loop f l it' with Some r => Some (v :: r) | None => None end
                end
            end
        end
    end.
  Definition ll_iterate (l : llist) : option (list V) :=
    iter_loop (S (length (ll_heap l))) l (ll_iterator l).
End LinkedList.
Arguments LL {V}. Arguments ll_heap {V}. Arguments ll_root {V}. Arguments ll_tail {V}. Arguments ll_len {V}.
Arguments ll_empty {V}. Arguments ll_append {V}. Arguments ll_of {V}. Arguments ll_extend {V}.
Arguments ll_iterator {V}. Arguments it_next {V}. Arguments it_value {V}. Arguments it_remove {V}.
Arguments remove_if {V} veq {S0}. Arguments remove_loop {V} veq {S0}. Arguments ll_iterate {V}.
Arguments iter_loop {V}. Arguments set_next {V}. Arguments next_of {V}. Arguments same_node {V}.
