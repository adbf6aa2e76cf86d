(** Model of sampo/utilities/schedule.py and of Schedule.unite_stages and
    Schedule.merged_stages_datetime_df (sampo/schemas/schedule.py): the rows of the stages of a
    work are merged into one row. *)
From Coq Require Import ZArith QArith List Bool Ascii String DecimalString Permutation Sorted.
Import ListNotations.
Local Open Scope Z_scope.

(** ** Strings *)
Definition str := list ascii.
Definition str_eqb (a b : str) : bool := if list_eq_dec ascii_dec a b then true else false.
Definition of_string : string -> str := list_ascii_of_string.
(** sampo/api/const.py:1, STAGE_SEP *)
Definition SEP : str := of_string "_stage_".
(** The rest of [s] after the prefix [p], as used by str.startswith. *)
Fixpoint strip (p s : str) : option str :=
  match p, s with
  | [], _ => Some s
  | a :: p', b :: s' => if ascii_dec a b then strip p' s' else None
  | _ :: _, [] => None
  end.
Definition startswith (s p : str) : bool := match strip p s with Some _ => true | None => false end.
(** str.split(STAGE_SEP): the parts between the occurrences, searched from the left; [skip]
    characters of an occurrence are still to be passed over, [cur] is the part read so far. *)
Fixpoint split_go (skip : nat) (s cur : str) : list str :=
  match s with
  | [] => [rev cur]
  | c :: r =>
      match skip with
      | S k => split_go k r cur
      | O => match strip SEP s with
             | Some _ => rev cur :: split_go (List.length SEP - 1) r []
             | None => split_go 0 r (c :: cur)
             end
      end
  end.
Definition split (s : str) : list str := split_go 0 s [].
(** [x.split(STAGE_SEP)[0]] *)
Definition first_part (s : str) : str := hd [] (split s).
(** A natural number in decimal, as in an f-string, and back by int(). Simplification: int()
    also accepts signs, spaces and underscores. *)
Definition digits (n : nat) : str := of_string (NilZero.string_of_uint (Nat.to_uint n)).
Definition parse (s : str) : option Z :=
  option_map (fun d => Z.of_nat (Nat.of_uint d)) (NilZero.uint_of_string (string_of_list_ascii s)).
(** sampo/structurator/base.py:13-22, make_new_node_id *)
Definition stage_id (work : str) (ind : nat) : str := work ++ SEP ++ digits ind.

(** ** Rows *)
(** A scheduled work (schemas/scheduled_work.py:31-62): id, display name, granular name,
    volume (a float in the code), cost, times, names and numbers of the workers. *)
Record object := Ob { ob_id : str; ob_name : str; ob_granular : str; ob_volume : Q; ob_cost : Z;
                      ob_start : Z; ob_finish : Z; ob_workers : list (nat * Z) }.
(** A row of the schedule's table. The column with the contractor is left out. *)
Record row := Rw { rw_id : str; rw_name : str; rw_granular : str; rw_volume : Q; rw_cost : Z;
                   rw_start : Z; rw_finish : Z; rw_duration : Z; rw_workers : list (nat * Z); rw_object : object }.
(** schedule.py:150-176, from_scheduled_works without a work graph: one row each *)
Definition row_of (o : object) : row :=
  Rw (ob_id o) (ob_name o) (ob_granular o) (ob_volume o) (ob_cost o)
     (Z.min (ob_start o) (ob_finish o)) (Z.max (ob_start o) (ob_finish o))
     (Z.max (ob_start o) (ob_finish o) - Z.min (ob_start o) (ob_finish o)) (ob_workers o) o.

(** utilities/schedule.py:63-65, get_stage_num; [None]: ValueError *)
Definition get_stage_num (name : str) : option Z :=
  match split name with
  | (_ :: _ :: _) as parts => parse (last parts [])
  | _ => Some (-1)
  end.
Definition stage_num (r : row) : Z := match get_stage_num (rw_granular r) with Some n => n | None => 0 end.
Definition parses (r : row) : bool := match get_stage_num (rw_granular r) with Some _ => true | None => false end.
Definition qsum (l : list Q) : Q := fold_right Qplus 0%Q l.

Section Merge.
  (** DataFrame.sort_values(by='stage_num') is a quick sort: it may return rows with the same
      number in any order. *)
  Variable sort : (row -> Z) -> list row -> list row.
  (** utilities/schedule.py:55-92, merge_split_stages; rows in the order of the table *)
  Definition merge_split_stages (l : list row) : option row :=
    match l with
    | [] => None
    | [r] => Some r
    | r0 :: _ =>
        if forallb parses l then
          let r := last (sort stage_num l) r0 in
          let f := last l r0 in
          Some (Rw (first_part (rw_id r)) (first_part (rw_name r)) (first_part (rw_granular r))
                   (qsum (map rw_volume l)) (rw_cost r) (rw_start r0) (rw_finish f)
                   (rw_finish f - rw_start r0 + 1) (rw_workers r0) (rw_object r))
        else None
    end.
  (** The set comprehension over the ids; [listing] is the iteration order of the set. *)
  Variable listing : list str -> list str.
  Definition unique_ids (rows : list row) : list str :=
    listing (nodup (list_eq_dec ascii_dec) (map (fun r => first_part (rw_id r)) rows)).
  Definition of_task (id : str) (r : row) : bool := startswith (rw_id r) (id ++ SEP) || str_eqb (rw_id r) id.
  Fixpoint merge_all (rows : list row) (ids : list str) : option (list row) :=
    match ids with
    | [] => Some []
    | i :: ids' =>
        match merge_split_stages (filter (of_task i) rows), merge_all rows ids' with
        | Some r, Some l => Some (r :: l)
        | _, _ => None
        end
    end.
  (** DataFrame.sort_values(by=['start', 'task_name']) *)
  Variable table_sort : list row -> list row.
  (** utilities/schedule.py:28-52, fix_split_tasks *)
  Definition fix_split_tasks (rows : list row) : option (list row) :=
    option_map table_sort (merge_all rows (unique_ids rows)).

  (** utilities/schedule.py:12-25, offset_schedule; dates are numbers of days *)
  Definition offset_row (d : Z) (r : row) : row :=
    Rw (rw_id r) (rw_name r) (rw_granular r) (rw_volume r) (rw_cost r) (d + rw_start r) (d + rw_finish r)
       (rw_duration r) (rw_workers r) (rw_object r).
  (** schemas/schedule.py:107-115, merged_stages_datetime_df *)
  Definition merged_stages_datetime_df (rows : list row) (d : Z) : option (list row) :=
    fix_split_tasks (map (offset_row d) rows).

  (** schemas/schedule.py:124-131, the function f of unite_stages *)
  Definition united (r : row) : object :=
    let o := rw_object r in
    Ob (ob_id o) (rw_name r) (rw_granular r) (rw_volume r) (ob_cost o) (rw_start r) (rw_finish r) (ob_workers o).
  (** schemas/schedule.py:117-135, unite_stages *)
  Definition unite_stages (rows : list row) : option (list row) :=
    option_map (map (fun r => row_of (united r))) (fix_split_tasks rows).
End Merge.

(** ** The names of stages *)
(** structurator/base.py:187: the dictionary with the granular name is shared by the work and
    all its stages, each stage that is made appends to it. [granular_after w k]: the name that
    all of them have when [k] stages have been made of a work with name [w]. *)
Fixpoint granular_after (name : str) (k : nat) : str :=
  match k with
  | O => name
  | S k' => granular_after name k' ++ SEP ++ digits k'
  end.
