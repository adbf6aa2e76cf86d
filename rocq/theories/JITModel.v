(** Model of sampo/scheduler/timeline/just_in_time_timeline.py: stacks of (release time,
    number of workers) per contractor and worker kind. *)
From Coq Require Import ZArith List Bool.
From Verif Require Import TimeModel MomentumModel.
Import ListNotations.
Local Open Scope Z_scope.
Local Open Scope bool_scope.

(** just_in_time_timeline.py:26-30. The head of this list is the LAST element of the
    Python list (the top of the stack, with the earliest release time). *)
Definition stack := list (Z * Z).
Definition jtimeline := list (nat * nat * stack).

Fixpoint jt_get (tl : jtimeline) (a : nat * nat) : option stack :=
  match tl with
  | [] => None
  | (b, s) :: r => if agent_eqb b a then Some s else jt_get r a
  end.
Fixpoint jt_set (tl : jtimeline) (a : nat * nat) (s : stack) : jtimeline :=
  match tl with
  | [] => []
  | (b, s0) :: r => if agent_eqb b a then (b, s) :: r else (b, s0) :: jt_set r a s
  end.

(** just_in_time_timeline.py:28-30, the constructor *)
Definition jit_init (pool : list (nat * nat * Z)) : jtimeline :=
  map (fun p => (fst p, [(0, snd p)])) pool.

(** just_in_time_timeline.py:127-134 (and 168-175), the while loop; the list is
    traversed from the top. *)
Fixpoint grab (needed acc : Z) (l : stack) : option Z :=
  if needed <=? 0 then Some acc
  else
    match l with
    | [] => None
    | (t, c) :: r => grab (needed - (if needed <? c then needed else c)) (tmax acc t) r
    end.

(** just_in_time_timeline.py:112-136, _find_min_start_time, for one worker. The index
    [ind] runs from len-1 down and, being a Python index, wraps round once below 0
    before IndexError ([None]); hence the list twice. *)
Definition agent_time (is_independent : bool) (count : Z) (st : stack) (max_agent_time : Z)
  : option Z :=
  if is_independent then
    match st with
    | [] => None
    | x :: _ => Some (tmax max_agent_time (fst (last st x)))
    end
  else grab count max_agent_time (st ++ st).

(** just_in_time_timeline.py:112-136, the loop over the team; [None] is KeyError or
    IndexError. *)
Fixpoint find_agents_time (is_independent : bool) (team : list worker) (tl : jtimeline)
         (max_agent_time : Z) : option Z :=
  match team with
  | [] => Some max_agent_time
  | w :: r =>
      match jt_get tl (w_contractor w, w_kind w) with
      | None => None
      | Some st =>
          match agent_time is_independent (w_count w) st max_agent_time with
          | None => None
          | Some t => find_agents_time is_independent r tl t
          end
      end
  end.

(** just_in_time_timeline.py:219-224, consuming workers; [None] is pop from an empty
    list. *)
Fixpoint consume (needed : Z) (l : stack) : option stack :=
  if needed <=? 0 then Some l
  else
    match l with
    | [] => None
    | (t, c) :: r =>
        if (needed <? c) || (match r with [] => true | _ => false end)
        then Some ((t, c - needed) :: r)
        else consume (needed - c) r
    end.

(** just_in_time_timeline.py:227-231, re-adding the team in the right place *)
Fixpoint bubble (x : Z * Z) (l : stack) : stack :=
  match l with
  | [] => [x]
  | y :: r => if fst y <? fst x then y :: bubble x r else x :: l
  end.

Definition stack_total (l : stack) : Z := fold_right (fun x acc => snd x + acc) 0 l.

(** just_in_time_timeline.py:204-231, the body of the loops of update_timeline *)
Definition update_stack (is_independent : bool) (finish count : Z) (st : stack) : option stack :=
  if is_independent then Some [(finish, stack_total st)]
  else match consume count st with
       | None => None
       | Some st' => Some (bubble (finish, count) st')
       end.

(** just_in_time_timeline.py:188-231, update_timeline *)
Fixpoint jit_update (is_independent : bool) (finish : Z) (team : list worker) (tl : jtimeline)
  : option jtimeline :=
  match team with
  | [] => Some tl
  | w :: r =>
      match jt_get tl (w_contractor w, w_kind w) with
      | None => None
      | Some st =>
          match update_stack is_independent finish (w_count w) st with
          | None => None
          | Some st' => jit_update is_independent finish r (jt_set tl (w_contractor w, w_kind w) st')
          end
      end
  end.

(** just_in_time_timeline.py:145-152 and 162-178, the worker part of
    can_schedule_at_the_moment *)
Definition jit_workers_free (is_independent : bool) (team : list worker) (start : Z)
           (tl : jtimeline) : option bool :=
  match find_agents_time is_independent team tl 0 with
  | None => None
  | Some t => Some (t <=? start)
  end.
