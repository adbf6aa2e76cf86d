(** Specification of merged rows. *)
From Coq Require Import ZArith QArith List Bool Ascii String.
From Verif Require Import MergeModel.
Import ListNotations.
Local Open Scope Z_scope.

(** [clean a]: the separator does not occur in [a], not even if it begins in [a] and goes on
    with the separator that is appended. *)
Definition clean (a : str) : Prop := forall x y, a ++ removelast SEP <> x ++ SEP ++ y.

(** [r] is a row of the task [b]: its id is [b] or that of a stage of it. *)
Definition row_of_task (b : str) (r : row) : Prop := rw_id r = b \/ exists i, rw_id r = stage_id b i.
(** What merging the rows [rows], in the order of the table, gives: a single row is kept.
    Otherwise volumes are added, the start and the workers are those of the first row, the
    finish is that of the last one; the rest comes from a row with the largest stage number. *)
Record merged (rows : list row) (r : row) : Prop := {
  mg_single : forall x, rows = [x] -> r = x;
  mg_volume : (rw_volume r == qsum (map rw_volume rows))%Q;
  mg_start : forall x l, rows = x :: l -> rw_start r = rw_start x /\ rw_workers r = rw_workers x;
  mg_finish : forall x l, rows = l ++ [x] -> rw_finish r = rw_finish x;
  mg_duration : (1 < List.length rows)%nat -> rw_duration r = rw_finish r - rw_start r + 1;
  mg_object : (1 < List.length rows)%nat -> exists x, In x rows /\ (forall y, In y rows -> stage_num y <= stage_num x) /\
      rw_object r = rw_object x /\ rw_cost r = rw_cost x /\ rw_name r = first_part (rw_name x) /\ rw_granular r = first_part (rw_granular x) /\ rw_id r = first_part (rw_id x)
}.
