(** Model of ExtendedSortedList (schemas/sorted_list.py) over sortedcontainers.SortedKeyList:
    the values in buckets, the greatest key of each bucket, and the length. A value is kept
    together with the key it was stored under, while the library keeps two lists of lists of
    the same shape. Keys are integers; bisection is a search from the left, which gives the
    same on sorted lists. *)
From Coq Require Import ZArith List Bool Arith.
Import ListNotations.
Local Open Scope Z_scope.

Section SortedList.
  Context {V : Type}.
  Record slist := SL { sl_buckets : list (list (Z * V)); sl_maxes : list Z; sl_len : nat }.

  (** bisect.bisect_left and bisect_right *)
  Fixpoint bisect_left (l : list Z) (k : Z) : nat := match l with [] => 0%nat | x :: r => if x <? k then S (bisect_left r k) else 0%nat end.
  Fixpoint bisect_right (l : list Z) (k : Z) : nat := match l with [] => 0%nat | x :: r => if x <=? k then S (bisect_right r k) else 0%nat end.
  (** l[i] = x and l.insert(i, x) *)
  Definition put_at {A} (l : list A) (i : nat) (x : A) : list A := firstn i l ++ x :: skipn (S i) l.
  Definition insert_at {A} (l : list A) (i : nat) (x : A) : list A := firstn i l ++ x :: skipn i l.
  (** the greatest key of a bucket *)
  Definition last_key (b : list (Z * V)) : Z := last (map fst b) 0.

  (** SortedKeyList._expand of the library: a bucket longer than twice the load is split; the index
      of positions, which is rebuilt when it is needed, is not modelled *)
  Definition expand (load pos : nat) (s : slist) : slist :=
    let b := nth pos (sl_buckets s) [] in
    if Nat.ltb (2 * load) (length b) then
      let half := skipn load b in
      SL (insert_at (put_at (sl_buckets s) pos (firstn load b)) (S pos) half)
         (insert_at (put_at (sl_maxes s) pos (last_key (firstn load b))) (S pos) (last_key half)) (sl_len s)
    else s.
  (** sorted_list.py:18-82, merge; [key] is the key of [old] *)
  Definition merge (load : nat) (key : Z) (value : V) (merger : V -> V -> V) (s : slist) : slist :=
    match sl_maxes s with
    | [] => SL (sl_buckets s ++ [[(key, value)]]) (sl_maxes s ++ [key]) (S (sl_len s))
    | _ =>
        let pos := bisect_left (sl_maxes s) key in
        if Nat.eqb pos (length (sl_maxes s)) then
          let pos := (pos - 1)%nat in
          let b := nth pos (sl_buckets s) [] in
          match rev b with
          | (k, v) :: _ =>
              if k =? key
              then SL (put_at (sl_buckets s) pos (put_at b (length b - 1) (key, merger v value))) (put_at (sl_maxes s) pos key) (sl_len s)
              else let s' := expand load pos (SL (put_at (sl_buckets s) pos (b ++ [(key, value)])) (put_at (sl_maxes s) pos key) (sl_len s)) in
                   SL (sl_buckets s') (sl_maxes s') (S (sl_len s))
          | [] => s
          end
        else
          let b := nth pos (sl_buckets s) [] in
          let idx := bisect_right (map fst b) key in
          match nth_error b (idx - 1), Nat.eqb idx 0 with
          | Some (k, v), false =>
              if k =? key
              then SL (put_at (sl_buckets s) pos (put_at b (idx - 1) (key, merger v value))) (sl_maxes s) (sl_len s)
              else let s' := expand load pos (SL (put_at (sl_buckets s) pos (insert_at b idx (key, value))) (sl_maxes s) (sl_len s)) in
                   SL (sl_buckets s') (sl_maxes s') (S (sl_len s))
          | _, _ =>
              let s' := expand load pos (SL (put_at (sl_buckets s) pos (insert_at b idx (key, value))) (sl_maxes s) (sl_len s)) in
              SL (sl_buckets s') (sl_maxes s') (S (sl_len s))
          end
    end.
  (** The items in order, each with the key it is stored under. *)
  Definition items (s : slist) : list (Z * V) := concat (sl_buckets s).
  (** sorted_list.py:9-16, __setitem__; [None] is IndexError *)
  Definition setitem (load idx : nat) (value : V) (s : slist) : option slist :=
    match nth_error (items s) idx with
    | Some (k, _) => Some (merge load k value (fun _ y => y) s)
    | None => None
    end.
End SortedList.
Arguments slist V : clear implicits.
