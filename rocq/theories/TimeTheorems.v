(** Property C01: Time arithmetic. *)
From Coq Require Import ZArith Lia.
From Verif Require Import TimeModel TimeProofs.
Local Open Scope Z_scope.

(** Nearest value in [-2000000000, 2000000000]. *)
Definition clip (x : Z) : Z := Z.max (-2000000000) (Z.min 2000000000 x).

Theorem time_operations_are_clipped_integers :
  forall a b,
    set_time a = clip a /\ tadd a b = clip (a + b) /\ tsub a b = clip (a - b) /\
    trsub a b = clip (b - a) /\ tmul a b = clip (a * b) /\
    tfloordiv a b = (if b =? 0 then None else Some (clip (a / b))).
Proof. exact ops_clip. Qed.
Print Assumptions time_operations_are_clipped_integers.
Example clip_ex : clip (1500000000 + 1500000000) = 2000000000 /\ clip (-3 * 7) = -21.
Proof. split; reflexivity. Qed.

Theorem time_in_range :
  forall a b r,
    r = set_time a \/ r = tadd a b \/ r = tsub a b \/ r = trsub a b \/ r = tmul a b \/ tfloordiv a b = Some r ->
    -2000000000 <= r <= 2000000000.
Proof. exact ops_range. Qed.
Print Assumptions time_in_range.

Theorem time_exact_in_range :
  forall a b,
    (-2000000000 <= a + b <= 2000000000 -> tadd a b = a + b) /\
    (-2000000000 <= a - b <= 2000000000 -> tsub a b = a - b) /\
    (-2000000000 <= a * b <= 2000000000 -> tmul a b = a * b).
Proof. exact ops_exact. Qed.
Print Assumptions time_exact_in_range.

Theorem time_add_commutative_monotone :
  forall a a' b b',
    tadd a b = tadd b a /\
    (a <= a' -> b <= b' -> tle (tadd a b) (tadd a' b') = true).
Proof. exact add_comm_mono. Qed.
Print Assumptions time_add_commutative_monotone.

(** The comparison operators are a total order and agree with each other. *)
Theorem time_total_order :
  forall a b c,
    (tlt a b = true <-> a < b) /\ (tle a b = true <-> a <= b) /\ (teq a b = true <-> a = b) /\
    tgt a b = tlt b a /\ tge a b = tle b a /\ tle a b = (tlt a b || teq a b)%bool /\
    (tle a b = true -> tle b c = true -> tle a c = true) /\
    (tle a b || tle b a)%bool = true /\
    (tle a b = true -> tle b a = true -> a = b).
Proof. exact total_order. Qed.
Print Assumptions time_total_order.

(** Saturated addition is not associative, so schedules near the bound may differ
    with the order of additions. *)
Theorem time_add_not_associative :
  exists a b c, tadd (tadd a b) c <> tadd a (tadd b c).
Proof. exists 2000000000, 1, (-1). vm_compute. discriminate. Qed.
Print Assumptions time_add_not_associative.
