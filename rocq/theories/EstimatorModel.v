(** Model of sampo/schemas/time_estimator.py: DefaultWorkEstimator in its static mode.
    Productivities are exact rationals instead of floats, so rounding errors of the
    floating-point quotient before math.ceil are not modelled. *)
From Coq Require Import ZArith List Bool QArith Qround.
From Verif Require Import TimeModel MomentumModel GraphModel.
Import ListNotations.
Local Open Scope Z_scope.

(** time_estimator.py:66-67 and 130-134, self._productivity: the mean productivity of a
    worker of a kind at a contractor; the '__ALL__' entry of a kind is the answer for
    every contractor without an entry of its own. [None]: no entry for the kind, the
    lookup raises KeyError. *)
Definition productivities := nat -> option (nat -> Q).

(** collections_util.py:25-33, build_index by name: the last worker of a name wins. *)
Fixpoint name2worker (team : list worker) (kind : nat) : option worker :=
  match team with
  | [] => None
  | w :: r =>
      match name2worker r kind with
      | Some w' => Some w'
      | None => if Nat.eqb (w_kind w) kind then Some w else None
      end
  end.

(** time_estimator.py:140-143, communication_coefficient; [None] is ZeroDivisionError. *)
Definition communication_coefficient (groups_count max_groups : Z) : option Q :=
  let n := groups_count in
  let m := max_groups in
  if m =? 0 then None
  else Some (Qdiv (inject_Z (-2 * n ^ 3 + 3 * n ^ 2 + (6 * m ^ 2 - 1) * n)) (inject_Z (6 * m ^ 2))).

(** time_estimator.py:113-128, _get_productivity in the static mode; [None]: the
    worker is Python's None (AttributeError), the kind is unknown (KeyError) or
    [max_count] is 0 (ZeroDivisionError). *)
Definition get_productivity (table : productivities) (worker : option worker) (max_count : Z) : option Q :=
  match worker with
  | None => None
  | Some w =>
      match table (w_kind w) with
      | None => None
      | Some of_contractor =>
          match communication_coefficient (w_count w) max_count with
          | None => None
          | Some coefficient =>
              Some (Qmult (Qmult (of_contractor (w_contractor w)) (inject_Z (w_count w))) coefficient)
          end
      end
  end.

(** time_estimator.py:99-110, the loop over the requirements; [times] holds the
    maximum of the list instead of the list. math.ceil is Qceiling. The answer [None] is an exception. *)
Fixpoint estimate_loop (table : productivities) (team : list worker) (reqs : list req) (times : Z) : option Z :=
  match reqs with
  | [] => Some (tmax times 0)
  | r :: rest =>
      if r_min r =? 0 then estimate_loop table team rest times
      else
        let worker := name2worker team (r_kind r) in
        let count := match worker with None => 0 | Some w => w_count w end in
        if count <? r_min r then Some time_inf
        else
          match get_productivity table worker (r_max r) with
          | None => None
          | Some productivity =>
              if Qeq_bool productivity 0 then Some time_inf
              else estimate_loop table team rest
                     (tmax times (set_time (Qceiling (Qdiv (inject_Z (r_volume r)) productivity))))
          end
  end.
(** time_estimator.py:92-110, estimate_time *)
Definition estimate_time (table : productivities) (reqs : list req) (team : list worker) : option Z :=
  match team with
  | [] => Some 0
  | _ => estimate_loop table team reqs 0
  end.

(** The estimator as the schedulers call it: work nodes of a graph with teams. Where
    estimate_time raises an exception the answer is infinite;
    [estimate_never_fails] (EstimatorTheorems.v) shows when that cannot happen. *)
Definition default_estimator (table : productivities) (g : graph) (n : nat) (team : list worker) : Z :=
  match estimate_time table (u_reqs (g_unit g n)) team with
  | Some t => t
  | None => TIME_INF
  end.
