(** Model of the resource optimizers: sampo/utilities/base_opt.py and
    sampo/scheduler/resource/*.py, and of their use by the schedulers. *)
From Coq Require Import ZArith List Bool.
From Verif Require Import TimeModel MomentumModel JITModel GraphModel ScheduleModel PriorityModel PipelineModel.
Import ListNotations.
Local Open Scope Z_scope.

(** base_opt.py:27-40, dichotomy_int. Each round at least one border moves, so the number
    of rounds is less than [up - down]; the rounds of the model are bounded by it. [func]
    answers [None] when it raises; [None] is this exception or exhausted rounds. *)
Fixpoint dichotomy_loop (rounds : nat) (func : Z -> option Z) (down up : Z) : option Z :=
  match rounds with
  | O => None
  | S r =>
      if 2 <? up - down then
        let x1 := Z.shiftr (down + up - 1) 1 in
        let x2 := Z.shiftr (down + up + 1) 1 in
        if x1 =? x2 then Some x1
        else
          match func x1, func x2 with
          | Some f1, Some f2 =>
              if f1 <? f2 then dichotomy_loop r func down x2 else dichotomy_loop r func x1 up
          | _, _ => None
          end
      else Some (Z.shiftr (up + down) 1)
  end.
Definition dichotomy_int (down up : Z) (func : Z -> option Z) : option Z :=
  dichotomy_loop (S (Z.to_nat (up - down))) func down up.

(** The truth value of a numpy array (or None): an array of one element has the value of
    the element, an empty one is false, the others raise ValueError. *)
Definition np_truth (flags : option (list bool)) : option bool :=
  match flags with
  | None => Some false
  | Some [] => Some false
  | Some [b] => Some b
  | Some _ => None
  end.

(** base_opt.py:43-57, coordinate_descent. [cur] is [done ++ ds]: the first positions are
    set, the others still are [down]. *)
Fixpoint descent_loop (method : Z -> Z -> (Z -> option Z) -> option Z) (fitness : list Z -> option Z)
         (flags : option (list bool)) (done downs ups : list Z) : option (list Z) :=
  match downs, ups with
  | d :: ds, u :: us =>
      match np_truth flags with
      | None => None
      | Some truth =>
          let flag := match flags with Some fs => nth (length done) fs false | None => true end in
          if truth && negb flag then descent_loop method fitness flags (done ++ [d]) ds us
          else
            match method d u (fun x => fitness (done ++ x :: ds)) with
            | None => None
            | Some x => descent_loop method fitness flags (done ++ [x]) ds us
            end
      end
  | _, _ => Some done
  end.
Definition coordinate_descent method fitness flags (down up : list Z) : option (list Z) :=
  descent_loop method fitness flags [] down up.

(** resource/coordinate_descent.py:23-63, optimize_resources. When the array is true it is
    [array([True])], so all counts are set. *)
Definition descent_optimizer method (fitness : list Z -> option Z) (flags : option (list bool))
           (down up : list Z) : option (list Z) :=
  match coordinate_descent method fitness flags down up with
  | None => None
  | Some counts => match np_truth flags with None => None | Some _ => Some counts end
  end.

(** resource/full_scan.py:52-68, the search on the diagonal; the answer is the last [mid]
    and [up_border]. The total width is an upper bound for the rounds. *)
Fixpoint any_greater (a b : list Z) : bool :=
  match a, b with x :: a', y :: b' => (y <? x) || any_greater a' b' | _, _ => false end.
Fixpoint halfway (a b : list Z) : list Z :=
  match a, b with x :: a', y :: b' => (x + y) / 2 :: halfway a' b' | _, _ => [] end.
Fixpoint width (down up : list Z) : Z :=
  match down, up with d :: ds, u :: us => (u - d) + width ds us | _, _ => 0 end.
Fixpoint diagonal_loop (rounds : nat) (fitness : list Z -> option Z) (down up mid : list Z) (left_fit right_fit : Z)
  : option (list Z * list Z) :=
  match rounds with
  | O => None
  | S r =>
      if any_greater mid down then
        let mid' := halfway up down in
        match fitness mid' with
        | None => None
        | Some next_fit =>
            if next_fit <? right_fit then diagonal_loop r fitness mid' up mid' next_fit right_fit
            else if left_fit <? next_fit then diagonal_loop r fitness down mid' mid' left_fit next_fit
            else Some (mid', up)
        end
      else Some (mid, up)
  end.
(** resource/full_scan.py:20-76, optimize_resources *)
Definition full_scan (fitness : list Z -> option Z) (bs : list border) (flags : option (list bool))
           (counts : list Z) : option (list Z) :=
  let down := map bd_min bs in
  let up := map bd_max bs in
  match fitness up, fitness down with
  | Some right_fit, Some left_fit =>
      match diagonal_loop (S (S (Z.to_nat (width down up)))) fitness down up up left_fit right_fit with
      | None => None
      | Some (mid, up') => descent_optimizer dichotomy_int fitness flags mid up'
      end
  | _, _ => None
  end.

(** resource/coordinate_descent.py with a one-dimensional method *)
Definition coordinate_descent_optimizer method (fitness : list Z -> option Z) (bs : list border)
           (flags : option (list bool)) (counts : list Z) : option (list Z) :=
  descent_optimizer method fitness flags (map bd_min bs) (map bd_max bs).

(** resource/average_req.py:22-50 with the default k = 2; the float quotient is exact *)
Definition average_req (bs : list border) (flags : option (list bool)) (counts : list Z) : option (list Z) :=
  match np_truth flags with
  | None => None
  | Some _ => Some (map (fun b => Z.max 0 (bd_min b) + Z.quot (bd_max b - bd_min b) 2) bs)
  end.
(** resource/identity.py: the team keeps its counts *)
Definition identity_optimizer (bs : list border) (flags : option (list bool)) (counts : list Z) : option (list Z) :=
  Some counts.

(** heft/base.py:48-51: the objective of HEFTBetweenScheduler *)
Definition momentum_objective g est (spec : nat -> work_spec) apt (n c : nat) (sd : sched) (s : mstate)
           (bs : list border) (counts : list Z) : option Z :=
  match momentum_times g est sd s n (team_of_counts c bs counts) (sp_independent (spec n)) apt with
  | Some (_, finish) => Some finish
  | None => None
  end.
(** generic.py:22-28, get_finish_time_default: the objective of HEFTScheduler *)
Definition jit_objective g est (spec : nat -> work_spec) apt (n c : nat) (sd : sched) (s : jtimeline)
           (bs : list border) (counts : list Z) : option Z :=
  match jit_find g est sd s n (team_of_counts c bs counts) (sp_independent (spec n)) apt,
        working_time_cascade g est n (team_of_counts c bs counts) with
  | Some (start, _), Some t => Some (tadd start t)
  | _, _ => None
  end.
Definition momentum_full_scan g est spec apt n c sd s (bs : list border) :=
  full_scan (momentum_objective g est spec apt n c sd s bs) bs.
Definition jit_full_scan g est spec apt n c sd s (bs : list border) :=
  full_scan (jit_objective g est spec apt n c sd s bs) bs.

(** heft/base.py:20-33: HEFTScheduler() *)
Definition heft_end_default g nodes est prio cs spec apt : scheduled jtimeline :=
  heft_end g nodes est prio (jit_full_scan g est spec apt) cs spec apt.
(** heft/base.py:42-46: HEFTBetweenScheduler() *)
Definition heft_between_default g nodes est prio cs spec apt : scheduled mstate :=
  heft_between g nodes est prio (momentum_full_scan g est spec apt) cs spec apt.
(** topological/base.py:22-29: TopologicalScheduler() *)
Definition topological_default g nodes est prio shuffle cs spec apt : scheduled mstate :=
  topological_scheduler g nodes est prio shuffle (fun _ _ _ _ => average_req) cs spec apt.
