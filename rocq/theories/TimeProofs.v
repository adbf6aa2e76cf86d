(** Lemmas for C01. *)
From Coq Require Import ZArith Lia Bool.
From Coq Require Import ZifyBool.
From Verif Require Import TimeModel.
Local Open Scope Z_scope.

Lemma set_time_clip a : set_time a = Z.max (-2000000000) (Z.min 2000000000 a).
Proof. unfold set_time, TIME_INF. repeat (match goal with |- context [if ?b then _ else _] => destruct b eqn:? end); lia. Qed.
Lemma ops_clip a b :
  set_time a = Z.max (-2000000000) (Z.min 2000000000 a) /\
  tadd a b = Z.max (-2000000000) (Z.min 2000000000 (a + b)) /\
  tsub a b = Z.max (-2000000000) (Z.min 2000000000 (a - b)) /\
  trsub a b = Z.max (-2000000000) (Z.min 2000000000 (b - a)) /\
  tmul a b = Z.max (-2000000000) (Z.min 2000000000 (a * b)) /\
  tfloordiv a b = (if b =? 0 then None else Some (Z.max (-2000000000) (Z.min 2000000000 (a / b)))).
Proof.
  unfold tadd, tsub, trsub, tmul, tfloordiv. rewrite !set_time_clip. repeat split.
Qed.
Lemma ops_range a b r :
  r = set_time a \/ r = tadd a b \/ r = tsub a b \/ r = trsub a b \/ r = tmul a b \/ tfloordiv a b = Some r ->
  -2000000000 <= r <= 2000000000.
Proof.
  destruct (ops_clip a b) as (-> & -> & -> & -> & -> & ->).
  intros [H|[H|[H|[H|[H|H]]]]]; try (subst r; lia).
  destruct (b =? 0); [discriminate|]. injection H as <-. lia.
Qed.
Lemma ops_exact a b :
  (-2000000000 <= a + b <= 2000000000 -> tadd a b = a + b) /\
  (-2000000000 <= a - b <= 2000000000 -> tsub a b = a - b) /\
  (-2000000000 <= a * b <= 2000000000 -> tmul a b = a * b).
Proof. destruct (ops_clip a b) as (_ & -> & -> & _ & -> & _). lia. Qed.
Lemma add_comm_mono a a' b b' :
  tadd a b = tadd b a /\ (a <= a' -> b <= b' -> tle (tadd a b) (tadd a' b') = true).
Proof.
  destruct (ops_clip a b) as (_ & -> & _). destruct (ops_clip b a) as (_ & -> & _).
  destruct (ops_clip a' b') as (_ & -> & _). unfold tle. lia.
Qed.
Lemma total_order a b c :
  (tlt a b = true <-> a < b) /\ (tle a b = true <-> a <= b) /\ (teq a b = true <-> a = b) /\
  tgt a b = tlt b a /\ tge a b = tle b a /\ tle a b = (tlt a b || teq a b)%bool /\
  (tle a b = true -> tle b c = true -> tle a c = true) /\
  (tle a b || tle b a)%bool = true /\
  (tle a b = true -> tle b a = true -> a = b).
Proof. unfold tlt, tle, teq, tgt, tge. lia. Qed.
