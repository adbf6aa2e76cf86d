(** Model of sampo/utilities/validation.py. A failed assertion or another exception is
    [false] or [None]. *)
From Coq Require Import ZArith List Bool.
From Verif Require Import TimeModel MomentumModel GraphModel ScheduleModel StableSort.
Import ListNotations.
Local Open Scope Z_scope.
Local Open Scope bool_scope.

(** Schedule.works: the works in the order of the rows. *)
Definition works := list (nat * swork).

(** validation.py:43, 52, 62, {work.id: work for work in schedule.works}: the last work
    with an id wins. *)
Definition scheduled (ws : works) (n : nat) : option swork := sd_get (rev ws) n.

(** schedule.py:76-83, execution_time: the finish column of the last row, which is the
    larger of the two times (schedule.py:152-160); [None] is IndexError. *)
Definition execution_time (ws : works) : option Z :=
  match rev ws with
  | [] => None
  | (_, w) :: _ => Some (Z.max (sw_start w) (sw_finish w))
  end.

(** validation.py:41-48 *)
Definition check_all_scheduled (nodes : list nat) (ws : works) : bool :=
  forallb (fun n => match scheduled ws n with Some _ => true | None => false end) nodes.

(** validation.py:51-58 *)
Definition check_parents (g : graph) (nodes : list nat) (ws : works) : bool :=
  forallb (fun n =>
    match scheduled ws n with
    | None => false
    | Some w =>
        forallb (fun p => match scheduled ws p with
                          | None => false
                          | Some pw => (sw_start pw <=? sw_finish pw) && (sw_finish pw <=? sw_start w)
                                       && (sw_start w <=? sw_finish w)
                          end) (parents g n)
    end) nodes.

(** validation.py:61-70 *)
Definition check_spec (nodes : list nat) (ws : works) (spec : nat -> work_spec) : bool :=
  forallb (fun n =>
    match sp_contractors (spec n) with
    | [] => true
    | _ => match scheduled ws n with
           | None => false
           | Some w => contractor_enabled (spec n) (sw_contractor w)
           end
    end) nodes.

(** validation.py:73-82 *)
Definition check_durations (g : graph) (ws : works) : bool :=
  forallb (fun x => negb (u_service (g_unit g (fst x)))
                    || (tsub (sw_finish (snd x)) (sw_start (snd x)) =? 0)) ws.

(** collections_util.py:26-34, build_index: the last requirement of a kind wins *)
Definition req_of (rs : list req) (k : nat) : option req :=
  find (fun r => Nat.eqb (r_kind r) k) (rev rs).
(** validation.py:174-179; looking up a work outside the graph is KeyError *)
Definition check_reqs (g : graph) (nodes : list nat) (ws : works) : bool :=
  forallb (fun x => existsb (Nat.eqb (fst x)) nodes &&
    forallb (fun w => match req_of (u_reqs (g_unit g (fst x))) (w_kind w) with
                      | None => false
                      | Some r => (r_min r <=? w_count w) && (w_count w <=? r_max r)
                      end) (sw_team (snd x))) ws.

(** validation.py:97-105, the initial state: contractors by id (a later contractor with
    the same id replaces the earlier), counts of one name added up. The nested
    dictionaries are one list keyed by contractor and kind. *)
Fixpoint add_count (p : list (nat * nat * Z)) (a : nat * nat) (d : Z) : list (nat * nat * Z) :=
  match p with
  | [] => [(a, d)]
  | (b, n) :: r => if agent_eqb b a then (b, n + d) :: r else (b, n) :: add_count r a d
  end.
Definition initial_state (cs : list contractor) : list (nat * nat * Z) :=
  fold_left (fun p c =>
               fold_left (fun p' w => add_count p' (ct_id c, fst w) (snd w)) (ct_workers c)
                         (filter (fun x => negb (Nat.eqb (fst (fst x)) (ct_id c))) p))
            cs [].

(** validation.py:119-123, the events in order of time *)
Inductive ev_type := EvStart | EvEnd.
Record vevent := VE { ve_type : ev_type; ve_time : Z; ve_team : list worker }.
Definition work_events (x : nat * swork) : list vevent :=
  [VE EvStart (sw_start (snd x)) (sw_team (snd x)); VE EvEnd (sw_finish (snd x)) (sw_team (snd x))].
Definition ordered_events (ws : works) : list vevent :=
  sort_by ve_time (concat (map work_events ws)).

(** validation.py:137-154, checking and applying the changes of one class of equal times *)
Fixpoint set_count (p : list (nat * nat * Z)) (a : nat * nat) (n : Z) : list (nat * nat * Z) :=
  match p with
  | [] => []
  | (b, m) :: r => if agent_eqb b a then (b, n) :: r else (b, m) :: set_count r a n
  end.
Fixpoint apply_class (init cur mp : list (nat * nat * Z)) : option (list (nat * nat * Z)) :=
  match mp with
  | [] => Some cur
  | (a, d) :: r =>
      match pool_get cur a, pool_get init a with
      | Some n, Some m =>
          if (0 <=? n + d) && (n + d <=? m) then apply_class init (set_count cur a (n + d)) r
          else None
      | _, _ => None
      end
  end.

(** validation.py:161-168, adding an event to the class; the contractor is the one of
    the first worker *)
Definition grab_event (e : vevent) (c : nat) (mp : list (nat * nat * Z)) : list (nat * nat * Z) :=
  fold_left (fun p w => add_count p (c, w_kind w)
                          (match ve_type e with EvStart => - w_count w | EvEnd => w_count w end))
            (ve_team e) mp.

(** validation.py:125-171, the loop over the events *)
Fixpoint sweep (init : list (nat * nat * Z)) (events : list vevent)
         (cur mp : list (nat * nat * Z)) (moment : Z) : option (list (nat * nat * Z)) :=
  match events with
  | [] => Some cur
  | e :: r =>
      match ve_team e with
      | [] => sweep init r cur mp moment
      | w0 :: _ =>
          if ve_time e =? moment then sweep init r cur (grab_event e (w_contractor w0) mp) moment
          else match apply_class init cur mp with
               | None => None
               | Some cur' => sweep init r cur' (grab_event e (w_contractor w0) []) (ve_time e)
               end
      end
  end.

(** validation.py:95-110 *)
Definition check_capacity (ws : works) (cs : list contractor) : bool :=
  match sweep (initial_state cs) (ordered_events ws) (initial_state cs) [] 0 with
  | Some _ => true
  | None => false
  end.

(** validation.py:12-38, validate_schedule. [nodes] are the nodes of the graph. *)
Definition validate_schedule (g : graph) (nodes : list nat) (ws : works)
           (cs : list contractor) (spec : nat -> work_spec) : bool :=
  match execution_time ws with
  | None => false
  | Some t =>
      (t =? TIME_INF) ||
      (check_all_scheduled nodes ws && check_parents g nodes ws && check_spec nodes ws spec
       && check_durations g ws && check_reqs g nodes ws && check_capacity ws cs)
  end.
