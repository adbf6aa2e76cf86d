(** Model of the genetic operators on resources, contractors and their borders
    (sampo/scheduler/genetic/operators.py). The resource part of a chromosome has one row
    per work: the amounts per profession and the contractor; the border part has one row of
    amounts per contractor. Random answers are arguments. *)
From Coq Require Import ZArith List Bool Arith.
From Verif Require Import TopoModel.
Import ListNotations.
Local Open Scope Z_scope.

Definition row := (list Z * nat)%type.
Fixpoint zip (f : Z -> Z -> Z) (a b : list Z) : list Z :=
  match a, b with x :: a', y :: b' => f x y :: zip f a' b' | _, _ => [] end.
Definition leq_all (a b : list Z) : bool := forallb (fun p => Z.leb (fst p) (snd p)) (combine a b).
(** numpy.arange *)
Definition zrange (a b : Z) : list Z := map (fun k => a + Z.of_nat k) (seq 0 (Z.to_nat (b - a))).
Fixpoint sequence {A} (l : list (option A)) : option (list A) :=
  match l with
  | [] => Some []
  | None :: _ => None
  | Some x :: l' => match sequence l' with Some r => Some (x :: r) | None => None end
  end.
Definition indexed {A} (l : list A) : list (nat * A) := combine (seq 0 (length l)) l.

(** operators.py:830-846, mutate_values for one row, merged with the mask of positions whose
    borders differ (operators.py:717, 817). [sel k] selects position [k]; [None] is the
    IndexError of choosing from nothing. *)
Fixpoint mutate_row (sel : nat -> bool) (pick : nat -> list Z -> Z) (k : nat) (amounts lows ups : list Z) : option (list Z) :=
  match amounts, lows, ups with
  | a :: amounts', l :: lows', u :: ups' =>
      match mutate_row sel pick (S k) amounts' lows' ups' with
      | None => None
      | Some r =>
          if sel k && negb (u =? l) then
            match zrange l a ++ zrange (a + 1) (u + 1) with
            | [] => None
            | ch => Some (pick k ch :: r)
            end
          else Some (a :: r)
      end
  | _, _, _ => Some []
  end.

Section MutateResources.
  (** [cc_sel w]: the contractor of work [w] is drawn anew, as [cc_pick w l]; [sel w k],
      [pick w k l]: the same for amounts *)
  Variable cc_sel : nat -> bool.
  Variable cc_pick : nat -> list nat -> nat.
  Variable sel : nat -> nat -> bool.
  Variable pick : nat -> nat -> list Z -> Z.
  (** lower and upper amounts per work, the available contractors per work *)
  Variable lows ups : nat -> list Z.
  Variable avail : nat -> list nat.
  (** operators.py:669-695 for one work *)
  Definition mutate_contractor (borders : list (list Z)) (w : nat) (r : row) : option row :=
    if Nat.ltb 1 (length borders) && cc_sel w then
      match avail w with
      | [] => None
      | l => let c := cc_pick w l in
             Some (if leq_all (fst r) (nth c borders []) then (fst r, c) else r)
      end
    else Some r.
  (** operators.py:697-723 for one work; a work without selected positions is unchanged *)
  Definition mutate_amounts (borders : list (list Z)) (w : nat) (r : row) : option row :=
    match mutate_row (sel w) (pick w) 0 (fst r) (lows w) (zip Z.min (ups w) (nth (snd r) borders [])) with
    | None => None
    | Some a => Some (a, snd r)
    end.
  (** operators.py:650-725, mutate_resources *)
  Definition mutate_resources (borders : list (list Z)) (rows : list row) : option (list row) :=
    match sequence (map (fun x => mutate_contractor borders (fst x) (snd x)) (indexed rows)) with
    | None => None
    | Some rows' => sequence (map (fun x => mutate_amounts borders (fst x) (snd x)) (indexed rows'))
    end.
End MutateResources.

(** operators.py:795-797 and 446-453: the contractors of the rows, and the largest amounts
    assigned to a contractor *)
Definition contractors_in (rows : list row) : list nat := nodup Nat.eq_dec (map snd rows).
Definition rows_of (c : nat) (rows : list row) : list (list Z) := map fst (filter (fun r => Nat.eqb (snd r) c) rows).
Definition column_max (l : list (list Z)) : list Z :=
  match l with [] => [] | r :: l' => fold_left (zip Z.max) l' r end.
(** operators.py:779-827, mutate_resource_borders; [sel c k] selects the border of
    profession [k] of contractor [c] *)
Definition mutate_borders (sel : nat -> nat -> bool) (pick : nat -> nat -> list Z -> Z) (cborders : list (list Z))
           (rows : list row) (borders : list (list Z)) : option (list (list Z)) :=
  sequence (map (fun x =>
    if mem (fst x) (contractors_in rows)
    then mutate_row (sel (fst x)) (pick (fst x)) 0 (snd x) (column_max (rows_of (fst x) rows)) (nth (fst x) cborders [])
    else Some (snd x)) (indexed borders)).

(** operators.py:421-454, is_chromosome_contractors_correct for work indices [0 .. n-1];
    [enabled w c]: the specification of work [w] allows contractor [c] *)
Definition contractors_correct (enabled : nat -> nat -> bool) (cborders : list (list Z))
           (order : list nat) (rows : list row) (borders : list (list Z)) : bool :=
  match rows with
  | [] => true
  | _ =>
      forallb (fun w => enabled w (snd (nth w rows ([], 0%nat)))) order &&
      (forallb (fun c => leq_all (column_max (rows_of c rows)) (nth c borders [])) (contractors_in rows) &&
       forallb (fun c => leq_all (nth c borders []) (nth c cborders [])) (contractors_in rows))
  end.

(** operators.py:614-647, mate_resources; [swapped w]: position [w] was sampled *)
Definition swap_rows (swapped : nat -> bool) (r1 r2 : list row) : list row :=
  map (fun x => if swapped (fst x) then snd (snd x) else fst (snd x)) (indexed (combine r1 r2)).
Definition mated_contractors (swapped : nat -> bool) (rows : list row) : list nat :=
  map (fun x => snd (snd x)) (filter (fun x => swapped (fst x)) (indexed rows)).
(** operators.py:638-645: [own] is the border part changed, [b1], [b2] the two current ones *)
Definition raise_borders (cs : list nat) (own b1 b2 : list (list Z)) : list (list Z) :=
  map (fun x => if mem (fst x) cs then zip Z.max (nth (fst x) b1 []) (nth (fst x) b2 []) else snd x) (indexed own).
Definition mate_resources (swapped : nat -> bool) (optimize : bool) (r1 : list row) (b1 : list (list Z)) (r2 : list row) (b2 : list (list Z))
  : (list row * list (list Z)) * (list row * list (list Z)) :=
  let r1' := swap_rows swapped r1 r2 in
  let r2' := swap_rows swapped r2 r1 in
  if optimize then
    let b1' := raise_borders (mated_contractors swapped r1') b1 b1 b2 in
    let b2' := raise_borders (mated_contractors swapped r2') b2 b1' b2 in
    ((r1', b1'), (r2', b2'))
  else ((r1', b1), (r2', b2)).
