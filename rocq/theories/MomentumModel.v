(** Model of sampo/scheduler/timeline/momentum_timeline.py: the event lists kept per
    contractor and worker kind, the slot search and the booking of workers. *)
From Coq Require Import ZArith List Bool.
From Verif Require Import TimeModel.
Import ListNotations.
Local Open Scope Z_scope.
Local Open Scope bool_scope.

(** schemas/types.py:13-27, EventType with its priority *)
Inductive etype := INITIAL | START | END.
Definition priority (t : etype) : Z :=
  match t with INITIAL => -1 | START => 0 | END => 1 end.

(** schemas/types.py:30-36, ScheduleEvent ([swork] is always None here) *)
Record event := Ev { ev_seq : Z; ev_type : etype; ev_time : Z; ev_cnt : Z }.

(** Python tuples (Time, int, int) compared lexicographically. *)
Definition key := (Z * Z * Z)%type.
Definition key_lt (a b : key) : bool :=
  let '(a1, a2, a3) := a in let '(b1, b2, b3) := b in
  (a1 <? b1) || ((a1 =? b1) && ((a2 <? b2) || ((a2 =? b2) && (a3 <? b3)))).
Definition key_le (a b : key) : bool := negb (key_lt b a).

(** momentum_timeline.py:40-45, event_cmp on a ScheduleEvent *)
Definition event_key (e : event) : key :=
  match ev_type e with
  | INITIAL => (-1, -1, priority INITIAL)
  | t => (ev_time e, ev_seq e, priority t)
  end.
(** momentum_timeline.py:47-49, event_cmp on a Time *)
Definition time_key (t : Z) : key := (t, TIME_INF, 2).
(** momentum_timeline.py:275, 319, 368: the probe (end, -1, EventType.INITIAL).
    The third component is only compared with events whose seq_id is -1 and whose
    time is [end]; the INITIAL event has key time -1, so it never is. *)
Definition left_probe (t : Z) : key := (t, -1, -1).

(** SortedKeyList.bisect_right / bisect_left: on a list sorted by key (proved as an
    invariant) binary search returns the length of the prefix selected here. *)
Fixpoint bisect_right (p : key) (l : list event) : nat :=
  match l with
  | [] => 0%nat
  | e :: r => if key_le (event_key e) p then S (bisect_right p r) else 0%nat
  end.
Fixpoint bisect_left (p : key) (l : list event) : nat :=
  match l with
  | [] => 0%nat
  | e :: r => if key_lt (event_key e) p then S (bisect_left p r) else 0%nat
  end.
(** SortedKeyList.add: insertion after all elements with a key not greater. *)
Definition sl_add (e : event) (l : list event) : list event :=
  let i := bisect_right (event_key e) l in firstn i l ++ e :: skipn i l.

(** Python indexing l[i], with negative indices counted from the end;
    [None] is IndexError. *)
Definition py_nth {A} (l : list A) (i : Z) : option A :=
  if i <? 0 then
    (if Z.of_nat (length l) + i <? 0 then None
     else nth_error l (Z.to_nat (Z.of_nat (length l) + i)))
  else nth_error l (Z.to_nat i).

(** momentum_timeline.py:64-67, the list for one agent at construction *)
Definition initial_state (count : Z) : list event := [Ev (-1) INITIAL 0 count].

(** momentum_timeline.py:281-287, the scan from the end of the interval down to the
    start index: the first failing index met is the last failing one. [i] is the
    index of the head of [l]. *)
Fixpoint last_fail (required : Z) (i : nat) (l : list event) : option nat :=
  match l with
  | [] => None
  | e :: r =>
      match last_fail required (S i) r with
      | Some j => Some j
      | None => if ev_cnt e <? required then Some i else None
      end
  end.

(** momentum_timeline.py:273-294, the while loop. [None] is an IndexError or running
    out of fuel; both are proved not to happen. *)
Fixpoint slot_loop (fuel : nat) (state : list event) (exec_time required last_time : Z)
         (current_start_time : Z) (current_start_idx : nat) : option Z :=
  match fuel with
  | O => None
  | S fuel' =>
      if current_start_time <? last_time then
        let end_idx := bisect_left (left_probe (tadd current_start_time exec_time)) state in
        match last_fail required current_start_idx
                (firstn (end_idx - current_start_idx) (skipn current_start_idx state)) with
        | None => Some current_start_time
        | Some idx =>
            match nth_error state (S idx) with
            | None => None
            | Some e => slot_loop fuel' state exec_time required last_time (ev_time e) (S idx)
            end
        end
      else Some current_start_time
  end.

(** momentum_timeline.py:242-294, _find_earliest_time_slot.
    [parent_time] is never below 0 in the callers, so the start index is a nat. *)
Definition find_earliest_time_slot (state : list event) (parent_time exec_time required : Z)
           (is_independent : bool) : option Z :=
  if exec_time =? 0 then Some parent_time
  else
    match py_nth state (-1) with
    | None => None
    | Some last_ev =>
        let last_time := ev_time last_ev in
        if is_independent then Some (tmax parent_time last_time)
        else slot_loop (S (length state)) state exec_time required last_time parent_time
                       (bisect_right (time_key parent_time) state - 1)
    end.

(** momentum_timeline.py:365-389, the body of the loop over the worker team: booking
    [w] workers over [start, end_). [None] is a failed assertion (or IndexError). *)
Definition update_state (task_index start end_ w : Z) (state : list event)
  : option (list event) :=
  let start_idx := bisect_right (time_key start) state in
  let end_idx := bisect_left (left_probe end_) state in
  match py_nth state (Z.of_nat start_idx - 1) with
  | None => None
  | Some e0 =>
      let available := ev_cnt e0 in
      let before := firstn start_idx state in
      let inside := firstn (end_idx - start_idx) (skipn start_idx state) in
      let after := skipn (start_idx + (end_idx - start_idx)) state in
      if forallb (fun e => w <=? ev_cnt e) inside && (w <=? available) then
        let state1 :=
          before ++ map (fun e => Ev (ev_seq e) (ev_type e) (ev_time e) (ev_cnt e - w)) inside
                 ++ after in
        let state2 := sl_add (Ev task_index START start (available - w)) state1 in
        match py_nth state2 (Z.of_nat (bisect_right (time_key end_) state2) - 1) with
        | None => None
        | Some e1 =>
            let end_count := if ev_time e1 =? end_ then ev_cnt e1 else ev_cnt e1 + w in
            Some (sl_add (Ev task_index END end_ end_count) state2)
        end
      else None
  end.

(** momentum_timeline.py:456-474, the body of _validate for one worker: [true] when no
    assertion fails. *)
Definition validate_state (start end_ w : Z) (state : list event) : bool :=
  let start_idx := bisect_right (time_key start) state in
  let end_idx := bisect_left (left_probe end_) state in
  match py_nth state (Z.of_nat start_idx - 1) with
  | None => false
  | Some e0 =>
      forallb (fun e => w <=? ev_cnt e) (firstn (end_idx - start_idx) (skipn start_idx state))
      && (w <=? ev_cnt e0)
  end.

(** schemas/resources.py Worker, the fields the timelines read. *)
Record worker := Wk { w_contractor : nat; w_kind : nat; w_count : Z }.

(** The dictionary of dictionaries self._timeline (momentum_timeline.py:59-67),
    keyed by contractor id and worker kind. *)
Definition timeline := list (nat * nat * list event).

Definition agent_eqb (a b : nat * nat) : bool :=
  Nat.eqb (fst a) (fst b) && Nat.eqb (snd a) (snd b).

Fixpoint tl_get (tl : timeline) (a : nat * nat) : option (list event) :=
  match tl with
  | [] => None
  | (b, s) :: r => if agent_eqb b a then Some s else tl_get r a
  end.
Fixpoint tl_set (tl : timeline) (a : nat * nat) (s : list event) : timeline :=
  match tl with
  | [] => []
  | (b, s0) :: r => if agent_eqb b a then (b, s) :: r else (b, s0) :: tl_set r a s
  end.

Record mstate := MS { m_tl : timeline; m_index : Z }.

(** momentum_timeline.py:29-72, the constructor; the pool gives the count of each
    (contractor, kind) *)
Definition momentum_init (pool : list (nat * nat * Z)) : mstate :=
  MS (map (fun p => (fst p, initial_state (snd p))) pool) 0.

(** momentum_timeline.py:365-389, the loop over the team *)
Fixpoint update_team (task_index start end_ : Z) (team : list worker) (tl : timeline)
  : option timeline :=
  match team with
  | [] => Some tl
  | w :: r =>
      match tl_get tl (w_contractor w, w_kind w) with
      | None => None
      | Some state =>
          match update_state task_index start end_ (w_count w) state with
          | None => None
          | Some state' =>
              update_team task_index start end_ r (tl_set tl (w_contractor w, w_kind w) state')
          end
      end
  end.

(** momentum_timeline.py:340-389, update_timeline *)
Definition update_timeline (finish_time exec_time : Z) (team : list worker) (s : mstate)
  : option mstate :=
  if exec_time =? 0 then Some s
  else
    let start := tsub finish_time exec_time in
    match update_team (m_index s) start finish_time team (m_tl s) with
    | None => None
    | Some tl => Some (MS tl (m_index s + 1))
    end.

(** collections_util.py build_index as used at momentum_timeline.py:211: the count of
    the last worker of that kind; [None] is KeyError. *)
Fixpoint type2count (team : list worker) (k : nat) : option Z :=
  match team with
  | [] => None
  | w :: r =>
      match type2count r k with
      | Some c => Some c
      | None => if Nat.eqb (w_kind w) k then Some (w_count w) else None
      end
  end.

(** momentum_timeline.py:213-240, the queue loop. [slot k start] is the slot search for
    kind [k]. [None] is an exception of the slot search, the failed assertion
    [found_start >= start], or running out of fuel. *)
Fixpoint queue_loop (fuel : nat) (slot : nat -> Z -> option Z)
         (queue scheduled : list nat) (start : Z) : option Z :=
  match fuel with
  | O => None
  | S fuel' =>
      match queue with
      | [] => Some start
      | k :: q =>
          match slot k start with
          | None => None
          | Some found =>
              if found <? start then None
              else
                match scheduled with
                | [] => queue_loop fuel' slot q [k] found
                | _ =>
                    if start =? found then queue_loop fuel' slot q (scheduled ++ [k]) found
                    else queue_loop fuel' slot (q ++ scheduled) [k] found
                end
          end
      end
  end.

(** The slot search for kind [k] of contractor [c] with the team's count of that kind. *)
Definition kind_slot (tl : timeline) (c : nat) (team : list worker) (exec_time : Z)
           (is_independent : bool) (k : nat) (start : Z) : option Z :=
  match tl_get tl (c, k), type2count team k with
  | Some state, Some cnt => find_earliest_time_slot state start exec_time cnt is_independent
  | _, _ => None
  end.

(** momentum_timeline.py:193-199 for one chain node: is some initial count below the
    count passed for that requirement? [None] is KeyError or IndexError. *)
Fixpoint lacks_workers (tl : timeline) (c : nat) (reqs : list nat) (team : list worker)
  : option bool :=
  match reqs, team with
  | [], _ => Some false
  | _ :: _, [] => None
  | k :: rr, w :: tr =>
      match tl_get tl (c, k) with
      | Some (e0 :: _) => if ev_cnt e0 <? w_count w then Some true else lacks_workers tl c rr tr
      | _ => None
      end
  end.
Fixpoint chain_lacks_workers (tl : timeline) (c : nat) (chain : list (list nat)) (team : list worker)
  : option bool :=
  match chain with
  | [] => Some false
  | reqs :: r =>
      match lacks_workers tl c reqs team with
      | Some false => chain_lacks_workers tl c r team
      | x => x
      end
  end.

(** Upper bound on the iterations of the queue loop (proved sufficient). *)
Definition queue_fuel (tl : timeline) (reqs : list nat) : nat :=
  ((list_sum (map (fun p => length (snd p)) tl) + 1) * (length reqs + 1))%nat.

(** momentum_timeline.py:164-240, _find_min_start_time. A chain node is given by its
    is_service_unit flag and the kinds of its worker_reqs, in order. *)
Definition find_min_start_time (tl : timeline) (c : nat) (chain : list (bool * list nat))
           (is_independent : bool) (parent_time exec_time : Z) (team : list worker) : option Z :=
  if forallb fst chain then Some parent_time
  else
    match chain_lacks_workers tl c (map snd chain) team with
    | None => None
    | Some true => Some time_inf
    | Some false =>
        match chain with
        | [] => None
        | (_, reqs) :: _ =>
            queue_loop (queue_fuel tl reqs) (kind_slot tl c team exec_time is_independent)
                       reqs [] parent_time
        end
    end.

(** momentum_timeline.py:456-474, _validate: [true] when no assertion fails (and no
    KeyError occurs). *)
Fixpoint validate_team (start end_ : Z) (team : list worker) (tl : timeline) : bool :=
  match team with
  | [] => true
  | w :: r =>
      match tl_get tl (w_contractor w, w_kind w) with
      | None => false
      | Some state => validate_state start end_ (w_count w) state && validate_team start end_ r tl
      end
  end.
Definition validate (finish_time exec_time : Z) (team : list worker) (tl : timeline) : bool :=
  if exec_time =? 0 then true
  else validate_team (tsub finish_time exec_time) finish_time team tl.

(** momentum_timeline.py:318-335, the body of the loop of can_schedule_at_the_moment *)
Definition can_schedule_state (start end_ w : Z) (state : list event) : option bool :=
  let start_idx := bisect_right (time_key start) state in
  let end_idx := bisect_left (left_probe end_) state in
  match py_nth state (Z.of_nat start_idx - 1), py_nth state 0 with
  | Some e0, Some ini =>
      Some (forallb (fun e => w <=? ev_cnt e) (firstn (end_idx - start_idx) (skipn start_idx state))
            && (w <=? ev_cnt e0) && (ev_cnt e0 <=? ev_cnt ini))
  | _, _ => None
  end.
Fixpoint can_schedule_team (start end_ : Z) (team : list worker) (tl : timeline) : option bool :=
  match team with
  | [] => Some true
  | w :: r =>
      match tl_get tl (w_contractor w, w_kind w) with
      | None => None
      | Some state =>
          match can_schedule_state start end_ (w_count w) state with
          | Some true => can_schedule_team start end_ r tl
          | x => x
          end
      end
  end.
(** momentum_timeline.py:296-338, can_schedule_at_the_moment for a work without
    materials and zones. In the independent branch the lookup key is a pair although
    the dictionary is keyed by contractor, so any worker raises KeyError ([None]). *)
Definition can_schedule_at_the_moment (is_independent : bool) (team : list worker)
           (start exec_time : Z) (tl : timeline) : option bool :=
  if is_independent then match team with [] => Some true | _ => None end
  else can_schedule_team start (tadd start exec_time) team tl.
