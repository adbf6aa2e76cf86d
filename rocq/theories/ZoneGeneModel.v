(** Model of the genetic operators on zones (scheduler/genetic/operators.py:849-898). The zones of
    a chromosome are a table with one row for each work and one column for each zone, with the status
    the work asks of the zone when it is done. *)
From Coq Require Import List Bool Arith.
Import ListNotations.

Definition zones := list (list nat).
(** zones.size *)
Definition size (z : zones) : nat := length (concat z).
(** z[i] = row *)
Definition put_row (z : zones) (i : nat) (row : list nat) : zones := firstn i z ++ row :: skipn (S i) z.
(** z[positions] = rows, one row after the other *)
Definition put_rows (z : zones) (positions : list nat) (rows : list (list nat)) : zones :=
  fold_left (fun z x => put_row z (fst x) (snd x)) (combine positions rows) z.
(** z[positions], a copy *)
Definition get_rows (z : zones) (positions : list nat) : list (list nat) := map (fun i => nth i z []) positions.

Section Operators.
  (** rand.randint(lo, hi); rand.sample(range(n), k) *)
  Variable randint : nat -> nat -> nat.
  Variable sample : nat -> nat -> list nat.
  (** operators.py:849-876, the zones of the two children *)
  Definition mate_for_zones (z1 z2 : zones) : zones * zones :=
    if Nat.eqb (size z1) 0 then (z1, z2)
    else
      let num_works := length z1 in
      let border := num_works / 4 in
      let cxpoint := randint border (num_works - border) in
      let mate_positions := sample num_works cxpoint in
      (put_rows z1 mate_positions (get_rows z2 mate_positions), put_rows z2 mate_positions (get_rows z1 mate_positions)).

  (** rand.random() < mutpb for a cell; the [k]-th rand.randint(0, statuses_available - 1) *)
  Variable mutated : nat -> nat -> bool.
  Variable draw : nat -> nat.
  (** operators.py:894, the mask *)
  Definition mask_of (z : zones) : list (list bool) :=
    map (fun i => map (mutated i) (seq 0 (length (hd [] z)))) (seq 0 (length z)).
  (** zones[mask] = new_zones, row by row; what is left of the new values is returned *)
  Fixpoint set_row (row : list nat) (mask : list bool) (new : list nat) : list nat * list nat :=
    match row, mask with
    | x :: r, b :: m =>
        match b, new with
        | true, v :: new' => let (r', rest) := set_row r m new' in (v :: r', rest)
        | _, _ => let (r', rest) := set_row r m new in (x :: r', rest)
        end
    | _, _ => (row, new)
    end.
  Fixpoint set_cells (z : zones) (mask : list (list bool)) (new : list nat) : zones :=
    match z, mask with
    | row :: r, m :: ms => let (row', rest) := set_row row m new in row' :: set_cells r ms rest
    | _, _ => z
    end.
  (** mask.sum() *)
  Definition mask_sum (mask : list (list bool)) : nat := length (filter (fun b => b) (concat mask)).
  (** operators.py:879-898; [None] is the ValueError of randint(0, -1) *)
  Definition mutate_for_zones (statuses_available : nat) (z : zones) : option zones :=
    if Nat.eqb (size z) 0 then Some z
    else
      let mask := mask_of z in
      if Nat.eqb statuses_available 0 && negb (Nat.eqb (mask_sum mask) 0) then None
      else Some (set_cells z mask (map draw (seq 0 (mask_sum mask)))).
End Operators.
