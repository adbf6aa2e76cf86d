(** Model of the measures of resource usage.
    Source: sampo/utilities/resource_usage.py, sampo/scheduler/genetic/operators.py,
    sampo/schemas/resources.py.
    Simplified: a worker's name is a number ([w_kind]); rationals stand for floats. *)
From Coq Require Import ZArith List Bool QArith Qminmax.
From Verif Require Import TimeModel MomentumModel GraphModel ScheduleModel ValidationModel.
Import ListNotations.
Local Open Scope Z_scope.

(** [SortedList(set(values))], resource_usage.py:13 *)
Fixpoint add_point (x : Z) (l : list Z) : list Z :=
  match l with
  | [] => [x]
  | y :: r => if x <? y then x :: l else if x =? y then l else y :: add_point x r
  end.
Definition sorted_set (l : list Z) : list Z := fold_right add_point [] l.
(** resource_usage.py:11-13 *)
Definition points (sd : sched) : list Z :=
  sorted_set (concat (map (fun x => [sw_start (snd x); sw_finish (snd x)]) sd)).
(** [SortedList.bisect_left]: the number of values before the first that is not less *)
Fixpoint bisect_left (l : list Z) (x : Z) : nat :=
  match l with
  | [] => O
  | y :: r => if y <? x then S (bisect_left r x) else O
  end.
(** [usage[start: finish] += count] *)
Fixpoint add_slice (u : list Z) (start finish : nat) (count : Z) : list Z :=
  match u with
  | [] => []
  | x :: r =>
      match finish with
      | O => u
      | S f => match start with
               | O => (x + count) :: add_slice r O f count
               | S s => x :: add_slice r s f count
               end
      end
  end.
(** [usage[name]] of a [defaultdict] of zero arrays, changed by [f] *)
Fixpoint update_usage (size : nat) (u : list (nat * list Z)) (k : nat) (f : list Z -> list Z) : list (nat * list Z) :=
  match u with
  | [] => [(k, f (repeat 0 size))]
  | (k', a) :: r => if Nat.eqb k' k then (k', f a) :: r else (k', a) :: update_usage size r k f
  end.
(** [is_none or worker.name in resources_names] *)
Definition selected (names : option (list nat)) (k : nat) : bool :=
  match names with None => true | Some l => existsb (Nat.eqb k) l end.
(** resource_usage.py:19-24, the workers of one work *)
Fixpoint use_team (names : option (list nat)) (size start finish : nat) (team : list worker) (u : list (nat * list Z)) : list (nat * list Z) :=
  match team with
  | [] => u
  | w :: r => use_team names size start finish r
                (if selected names (w_kind w) then update_usage size u (w_kind w) (fun a => add_slice a start finish (w_count w)) else u)
  end.
(** resource_usage.py:10-26, get_total_resources_usage *)
Fixpoint use_works (names : option (list nat)) (pts : list Z) (sd : sched) (u : list (nat * list Z)) : list (nat * list Z) :=
  match sd with
  | [] => u
  | (_, w) :: r => use_works names pts r
                     (use_team names (length pts) (bisect_left pts (sw_start w)) (bisect_left pts (sw_finish w)) (sw_team w) u)
  end.
Definition total_usage (names : option (list nat)) (sd : sched) : list (nat * list Z) := use_works names (points sd) sd [].
(** [max] of a non-empty array *)
Definition maximum (l : list Z) : Z := match l with [] => 0 | x :: r => fold_left Z.max r x end.
(** resource_usage.py:29-30, get_resources_peak_usage *)
Definition peak_usage (names : option (list nat)) (sd : sched) : list (nat * Z) :=
  map (fun x => (fst x, maximum (snd x))) (total_usage names sd).
Definition zsum (l : list Z) : Z := fold_right Z.add 0 l.
(** schedule.py:83-89, execution_time; the 0 of an empty schedule stands for an exception *)
Definition end_time (sd : sched) : Z := match execution_time sd with Some t => t | None => 0 end.
(** resource_usage.py:33-39, resources_peaks_sum *)
Definition peaks_sum (names : option (list nat)) (sd : sched) : Z :=
  if is_inf (end_time sd) then TIME_INF else zsum (map snd (peak_usage names sd)).
(** resource_usage.py:42-53, resources_sum. [Worker] has no attribute [model_name], and the
    condition reads it first: [None] is the [AttributeError]. *)
Definition team_sum (duration : Z) (team : list worker) : option Z :=
  match team with
  | [] => Some 0
  | _ :: _ => None
  end.
Fixpoint resources_sum (sd : sched) : option Z :=
  match sd with
  | [] => Some 0
  | (_, w) :: r =>
      match team_sum (tsub (sw_finish w) (sw_start w)) (sw_team w), resources_sum r with
      | Some x, Some y => Some (x + y)
      | _, _ => None
      end
  end.
(** resource_usage.py:56-67, resources_costs_sum; [cost w] is [worker.get_cost()] *)
Definition costs_sum (cost : worker -> Q) (names : option (list nat)) (sd : sched) : Q :=
  fold_right (fun x acc => (fold_right (fun w a => (if selected names (w_kind w) then cost w * inject_Z (tsub (sw_finish (snd x)) (sw_start (snd x))) else 0) + a) 0 (sw_team (snd x)) + acc)%Q)
    0%Q sd.
(** operators.py:40-53, SumOfResourcesPeaksFitness of the rows of a schedule *)
Definition peaks_fitness (names : option (list nat)) (rows : works) : list Z := [peaks_sum names rows].
(** operators.py:71-85, TimeWithResourcesFitness *)
Definition time_with_peaks_fitness (names : option (list nat)) (rows : works) : list Z := [end_time rows + peaks_sum names rows].
(** operators.py:88-107, DeadlineResourcesFitness of a schedule *)
Definition deadline_resources (deadline : Z) (names : option (list nat)) (sd : sched) : Q :=
  (inject_Z (peaks_sum names sd) * Qmax 1 (inject_Z (end_time sd) / inject_Z deadline))%Q.

(** resources.py:44-96, the part of a worker that determines its cost *)
Record costed := Costed { cw_count : Z; cw_mean : Q; cw_cost_one_unit : Q }.
(** resources.py:57-67, the constructor: the cost of one unit is optional *)
Definition new_worker (count : Z) (mean : Q) (cost : option Q) : costed :=
  Costed count mean (match cost with Some c => c | None => (mean * 10)%Q end).
(** resources.py:71-81: [copy] does not pass the cost on *)
Definition copy_worker (w : costed) : costed := new_worker (cw_count w) (cw_mean w) None.
(** resources.py:83-91 *)
Definition with_count (w : costed) (n : Z) : costed := Costed n (cw_mean w) (cw_cost_one_unit w).
(** resources.py:93-95 *)
Definition get_cost (w : costed) : Q := (cw_cost_one_unit w * inject_Z (cw_count w))%Q.
(** scheduler/utils/__init__.py:10-24, get_worker_contractor_pool, one worker of the pool *)
Definition pool_worker (w : costed) : costed := copy_worker w.
(** converter.py:174, 286, lft/base.py:238: a worker of a team *)
Definition team_worker (w : costed) (n : Z) : costed := with_count (copy_worker (pool_worker w)) n.
