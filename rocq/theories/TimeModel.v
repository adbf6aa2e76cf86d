(** Model of sampo/schemas/time.py: integers saturated at TIME_INF. *)
From Coq Require Import ZArith.
Local Open Scope Z_scope.

(** time.py:3 *)
Definition TIME_INF : Z := 2000000000.

(** time.py:88-94, Time.set_time: every constructed value is clipped.
    [int(value)] is the identity on integers; floats are not modelled here. *)
Definition set_time (value : Z) : Z :=
  if TIME_INF <? value then TIME_INF
  else if value <? - TIME_INF then - TIME_INF
  else value.

(** time.py:22-27, Time.inf *)
Definition time_inf : Z := set_time TIME_INF.

(** time.py:31-35, __add__ and __radd__ *)
Definition tadd (a b : Z) : Z := set_time (a + b).
(** time.py:37-38, __sub__ *)
Definition tsub (a b : Z) : Z := set_time (a - b).
(** time.py:40-41, __rsub__: the int on the left *)
Definition trsub (self other : Z) : Z := set_time (other - self).
(** time.py:43-47, __mul__ and __rmul__ *)
Definition tmul (a b : Z) : Z := set_time (a * b).
(** time.py:49-50, __floordiv__; [None] is ZeroDivisionError.
    Z.div rounds towards minus infinity, as Python's // does. *)
Definition tfloordiv (a b : Z) : option Z :=
  if b =? 0 then None else Some (set_time (a / b)).
(** time.py:55-68, comparisons are those of the stored integers. *)
Definition tlt (a b : Z) : bool := a <? b.
Definition tle (a b : Z) : bool := a <=? b.
Definition tgt (a b : Z) : bool := b <? a.
Definition tge (a b : Z) : bool := b <=? a.
Definition teq (a b : Z) : bool := a =? b.
(** time.py:96-97, is_inf *)
Definition is_inf (a : Z) : bool := Z.abs a =? TIME_INF.
(** Python's max of two Times: the first argument unless the second is greater. *)
Definition tmax (a b : Z) : Z := if a <? b then b else a.
