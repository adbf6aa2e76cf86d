(** Model of sampo/scheduler/resources_in_time/average_binary_search.py:
    AverageBinarySearchResourceOptimizingScheduler.schedule_with_cache. *)
From Coq Require Import ZArith List Bool.
From Verif Require Import TimeModel.
Import ListNotations.
Local Open Scope Z_scope.

(** The coefficients k are multiples of 1/2^18 between 1 and 10000: [k] stands for
    k / RESOLUTION. The halvings of the search stay exact in this unit, as they do in
    floats (DeadlineTheorems.v proves the former). *)
Definition RESOLUTION : Z := 262144.

Section Search.
  (** average_binary_search.py:34-48, call_scheduler and fitness: the execution time of
      the schedule that the base scheduler builds for a coefficient and a specification,
      which is given by the works marked is_independent; [None]: there is no schedule and
      fitness raises AttributeError. The base scheduler is deterministic. *)
  Variable fitness : Z -> list nat -> option Z.
  Variable deadline : Z.

  (** average_binary_search.py:55-56 *)
  Definition K_MIN : Z := RESOLUTION.
  Definition K_MAX : Z := 10000 * RESOLUTION.

  (** average_binary_search.py:52, 71, 75: is_independent in the specification *)
  Definition set_independent (spec : list nat) (n : nat) : list nat := n :: spec.
  Definition unset_independent (spec : list nat) (n : nat) : list nat :=
    filter (fun m => negb (Nat.eqb m n)) spec.

  (** average_binary_search.py:70-81, the loop over the works; the answer is the final
      specification *)
  Fixpoint separate (nodes : list nat) (try_count : nat) (spec : list nat) : option (list nat) :=
    match nodes with
    | [] => Some spec
    | n :: rest =>
        let spec1 := set_independent spec n in
        match fitness K_MAX spec1 with
        | None => None
        | Some new_time =>
            if deadline <? new_time then
              let spec2 := unset_independent spec1 n in
              if Nat.eqb (S try_count) 3 then Some spec2
              else separate rest (S try_count) spec2
            else separate rest 0 spec1
        end
    end.

  Inductive search := Exhausted | Failed | Best (left_fit left_m right_fit right_m : Z).
  (** average_binary_search.py:92-106, the bisection *)
  Fixpoint bisect (fuel : nat) (k_min k_max left_fit left_m right_fit right_m : Z) : search :=
    if negb (RESOLUTION <? 20 * (k_max - k_min)) then Best left_fit left_m right_fit right_m
    else
      match fuel with
      | O => Exhausted
      | S fuel' =>
          let m := (k_min + k_max) / 2 in
          match fitness m [] with
          | None => Failed
          | Some time_m =>
              let d := Z.abs (time_m - deadline) in
              if deadline <? time_m then
                if d <=? right_fit then bisect fuel' k_min m left_fit left_m d m
                else bisect fuel' k_min m left_fit left_m right_fit right_m
              else
                if d <=? left_fit then bisect fuel' m k_max d m right_fit right_m
                else bisect fuel' m k_max left_fit left_m right_fit right_m
          end
      end.

  (** average_binary_search.py:25-110: the coefficient and the specification of the last
      call of the base scheduler, whose result is returned. [None]: an exception.
      Eighteen halvings are enough (proved). The specification is emptied at the start. *)
  Definition schedule_to_deadline (nodes : list nat) : option (Z * list nat) :=
    match fitness K_MAX [] with
    | None => None
    | Some t =>
        if t <? deadline then
          match separate nodes 0 [] with
          | None => None
          | Some spec => Some (K_MAX, spec)
          end
        else
          match bisect 18 K_MIN K_MAX TIME_INF K_MAX TIME_INF K_MIN with
          | Best left_fit left_m _ right_m =>
              if left_fit <? TIME_INF then Some (left_m, []) else Some (right_m, [])
          | _ => None
          end
    end.

  (** The coefficients that the bisection tries, in order. *)
  Fixpoint probes (fuel : nat) (k_min k_max : Z) : list Z :=
    if negb (RESOLUTION <? 20 * (k_max - k_min)) then []
    else
      match fuel with
      | O => []
      | S fuel' =>
          let m := (k_min + k_max) / 2 in
          m :: match fitness m [] with
               | None => []
               | Some t => if deadline <? t then probes fuel' k_min m else probes fuel' m k_max
               end
      end.
End Search.
