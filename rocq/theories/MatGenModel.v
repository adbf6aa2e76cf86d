(** Model of SimpleSynthetic.set_materials_for_wg (generator/base.py:80-111). Materials are numbers. *)
From Coq Require Import ZArith List Bool Arith.
Import ListNotations.
Local Open Scope Z_scope.

(** [BordersError] is the ValueError of base.py:99-100, [EmptyRange] that of randint *)
Inductive outcome := MaterialsSet (reqs : nat -> list (nat * Z)) | BordersError | EmptyRange.

(** base.py:90, the six names that are used if none are given *)
Definition six_names : list nat := [0; 1; 2; 3; 4; 5]%nat.
Section Materials.
  Variable service : nat -> bool.
  Variable nodes : list nat.
  (** for a node: randint(lo, hi); the [j]-th answer of choices among [k]; the order of the set;
      the amount of the [i]-th requirement, randint(52, 345) *)
  Variable count : nat -> nat -> nat -> nat.
  Variable pick : nat -> nat -> nat -> nat.
  Variable order : nat -> list nat -> list nat.
  Variable amount : nat -> nat -> Z.

  (** base.py:89-97: names, bottom border, top border *)
  Definition resolve (names : option (list nat)) (bottom top : option nat) : list nat * nat * nat :=
    match names with
    | None => (six_names, 2, 6)%nat
    | Some l => (l, match bottom with Some b => b | None => (length l / 2)%nat end, match top with Some t => t | None => length l end)
    end.
  (** base.py:104-106, one work *)
  Definition draw (names : list nat) (bottom top n : nat) : list (nat * Z) :=
    let chosen := map (fun j => nth (pick n j (length names)) names 0%nat) (seq 0 (count n bottom top)) in
    let work_materials := order n (nodup Nat.eq_dec chosen) in
    map (fun i => (nth i work_materials 0%nat, amount n i)) (seq 0 (length work_materials)).
  (** base.py:102-108; the works are changed in place *)
  Fixpoint set_all (names : list nat) (bottom top : nat) (l : list nat) (reqs : nat -> list (nat * Z)) : outcome :=
    match l with
    | [] => MaterialsSet reqs
    | n :: r =>
        if service n then set_all names bottom top r reqs
        else if Nat.ltb top bottom then EmptyRange
        else set_all names bottom top r (fun m => if Nat.eqb m n then draw names bottom top n else reqs m)
    end.
  Definition set_materials (names : option (list nat)) (bottom top : option nat) (reqs : nat -> list (nat * Z)) : outcome :=
    let '(l, b, t) := resolve names bottom top in
    if Nat.ltb (length l) b || Nat.ltb (length l) t then BordersError else set_all l b t nodes reqs.
End Materials.
