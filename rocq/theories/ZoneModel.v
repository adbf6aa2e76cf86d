(** Model of sampo/scheduler/timeline/zone_timeline.py: the statuses of zones over time. *)
From Coq Require Import ZArith List Bool.
From Verif Require Import TimeModel.
Import ListNotations.
Local Open Scope Z_scope.

(** schemas/types.py:13-40, ScheduleEvent; available_workers_count holds the status *)
Inductive zkind := ZInit | ZStart | ZEnd.
Record zevent := ZE { ze_seq : Z; ze_kind : zkind; ze_time : Z; ze_status : nat }.
(** zone_timeline.py:15-28, event_cmp *)
Definition zkey (e : zevent) : Z * Z * Z :=
  match ze_kind e with
  | ZInit => (-1, -1, -1)
  | ZStart => (ze_time e, ze_seq e, 0)
  | ZEnd => (ze_time e, ze_seq e, 1)
  end.
Definition zkey_leb (a b : Z * Z * Z) : bool :=
  let '(a1, a2, a3) := a in
  let '(b1, b2, b3) := b in
  (a1 <? b1) || ((a1 =? b1) && ((a2 <? b2) || ((a2 =? b2) && (a3 <=? b3)))).
(** SortedList.add: after all elements with an equal or smaller key *)
Fixpoint zadd (e : zevent) (l : list zevent) : list zevent :=
  match l with
  | [] => [e]
  | x :: r => if zkey_leb (zkey x) (zkey e) then x :: zadd e r else e :: l
  end.
(** SortedList.bisect_right of a Time: the number of events that are not later. Sequence
    numbers are below Time.inf(). *)
Definition ztime (e : zevent) : Z := fst (fst (zkey e)).
Definition zright (l : list zevent) (t : Z) : nat := length (filter (fun e => ztime e <=? t) l).

(** schemas/zones.py:40-41, DefaultZoneStatuses.match_status *)
Definition zmatch (status required : nat) : bool := Nat.eqb required 0 || Nat.eqb status required.

Definition zdummy : zevent := ZE 0 ZInit 0 0.
Definition zlast (l : list zevent) : zevent := last l zdummy.
Definition zslice (l : list zevent) (i j : nat) : list zevent := skipn i (firstn j l).

(** zone_timeline.py:86-106, _validate: false is the AssertionError *)
Definition zvalid (l : list zevent) (start exec : Z) (required : nat) : bool :=
  let start_idx := zright l start in
  let end_idx := zright l (tadd start exec) in
  let before := nth (start_idx - 1) l zdummy in
  forallb (fun e => zmatch (ze_status e) required) (zslice l start_idx end_idx) &&
  match ze_kind before with
  | ZStart => zmatch (ze_status before) required
  | _ => true
  end.
(** zone_timeline.py:206-218, _is_inside_interval *)
Definition zinside (l : list zevent) (idx : nat) : bool :=
  let rest := skipn idx l in
  Nat.eqb (length (filter (fun e => match ze_kind e with ZStart => true | _ => false end) rest))
          (length (filter (fun e => match ze_kind e with ZStart => false | _ => true end) rest)).

Section Costs.
  (** schemas/zones.py:48, time_costs *)
  Variable cost : nat -> nat -> Z.

  (** zone_timeline.py:176-187: the greatest position from [i] up to before [j] whose status
      does not match *)
  Fixpoint last_mismatch (l : list zevent) (required : nat) (i j : nat) : option nat :=
    match j with
    | O => None
    | S j' => if Nat.leb i j' then
                if zmatch (ze_status (nth j' l zdummy)) required then last_mismatch l required i j' else Some j'
              else None
    end.
  (** zone_timeline.py:108-200, the loop of _find_earliest_time_slot; [None]: more than [fuel] rounds *)
  Fixpoint slot_loop (fuel : nat) (l : list zevent) (parent exec : Z) (required : nat) (idx : nat) (t : Z) : option Z :=
    match fuel with
    | O => None
    | S f =>
        if Nat.leb (length l) idx then Some t
        else
          let cur := nth idx l zdummy in
          let next i := slot_loop f l parent exec required i (ze_time (nth i l zdummy)) in
          let scan t1 :=
            match last_mismatch l required idx (zright l (tadd t1 exec)) with
            | None => Some t1
            | Some j =>
                let idx' := S (Nat.max j idx) in
                if Nat.leb (length l) idx' then Some (tmax parent (tadd (ze_time (zlast l)) 1))
                else next idx'
            end in
          if negb (zmatch (ze_status cur) required) then
            if Nat.eqb idx (length l - 1) then
              Some (tadd t (tmax 0 (tsub (cost (ze_status cur) required) (tsub t (ze_time (zlast l))))))
            else
              match ze_kind cur with
              | ZStart => next (S idx)
              | _ => if zinside l idx then next (S idx)
                     else scan (tadd t (cost (ze_status cur) required))
              end
          else scan t
    end.
  (** zone_timeline.py:108-204, _find_earliest_time_slot; [None] is an exception *)
  Definition find_slot (l : list zevent) (parent exec : Z) (required : nat) : option Z :=
    match slot_loop (S (length l)) l parent exec required (zright l parent - 1) parent with
    | None => None
    | Some t => if zvalid l t exec required then Some t else None
    end.

  (** The timelines of the zones, which are numbered; [None]: no such zone (KeyError). *)
  Definition ztimelines := nat -> option (list zevent).
  (** zone_timeline.py:31-34; [start] gives the status of every zone at the start *)
  Definition zones_start (start : nat -> option nat) : ztimelines :=
    fun z => option_map (fun s => [ZE (-1) ZInit 0 s]) (start z).
  (** A requirement: the zone and its status. *)
  Definition zreq := (nat * nat)%type.
  (** build_index: the last requirement for a zone counts *)
  Definition zrequired (zones : list zreq) (z : nat) : nat :=
    fold_left (fun acc r => if Nat.eqb (fst r) z then snd r else acc) zones 0%nat.

  (** zone_timeline.py:46-77, the loop of find_min_start_time *)
  Fixpoint zones_loop (fuel : nat) (tl : ztimelines) (zones : list zreq) (exec : Z) (queue scheduled : list zreq) (start : Z) : option Z :=
    match queue with
    | [] => Some start
    | r :: rest =>
        match fuel with
        | O => None
        | S f =>
            match tl (fst r) with
            | None => None
            | Some l =>
                match find_slot l start exec (zrequired zones (fst r)) with
                | None => None
                | Some found =>
                    if negb (tge found start) then None
                    else if match scheduled with [] => true | _ => false end || teq start found
                    then zones_loop f tl zones exec rest (scheduled ++ [r]) (tmax start found)
                    else zones_loop f tl zones exec (rest ++ scheduled) [r] (tmax start found)
                end
            end
        end
    end.
  (** The rounds are bounded by the events and requirements (proved). *)
  Definition zones_fuel (tl : ztimelines) (zones : list zreq) : nat :=
    S (list_sum (map (fun r => match tl (fst r) with Some l => S (length l) | None => O end) zones)) * S (length zones).
  (** zone_timeline.py:36-81, find_min_start_time *)
  Definition find_min_zone_time (tl : ztimelines) (zones : list zreq) (parent exec : Z) : option Z :=
    zones_loop (zones_fuel tl zones) tl zones exec zones [] parent.

  (** zone_timeline.py:220-244, can_schedule_at_the_moment; [None] is KeyError *)
  Fixpoint can_schedule_zones (tl : ztimelines) (zones : list zreq) (start exec : Z) : option bool :=
    match zones with
    | [] => Some true
    | (z, required) :: rest =>
        match tl z with
        | None => None
        | Some l =>
            let start_idx := zright l start in
            let end_idx := zright l (tadd start exec) in
            let status := ze_status (nth (start_idx - 1) l zdummy) in
            if negb (zmatch status required) &&
               (negb (Nat.eqb (zright l (tsub start (cost status required))) start_idx) || negb (zinside l start_idx))
            then Some false
            else if forallb (fun e => zmatch (ze_status e) required) (zslice l start_idx end_idx)
            then can_schedule_zones tl rest start exec
            else Some false
        end
    end.

  (** schemas/zones.py:55-61, ZoneTransition *)
  Record ztransition := ZT { zt_zone : nat; zt_from : nat; zt_to : nat; zt_start : Z; zt_end : Z }.
  Definition zset (tl : ztimelines) (z : nat) (l : list zevent) : ztimelines := fun x => if Nat.eqb x z then Some l else tl x.
  (** zone_timeline.py:246-271, update_timeline; [None] is an exception *)
  Fixpoint update_zones (index : Z) (tl : ztimelines) (zones : list zreq) (start exec : Z) : option (ztimelines * list ztransition) :=
    match zones with
    | [] => Some (tl, [])
    | (z, required) :: rest =>
        match tl z with
        | None => None
        | Some l =>
            let status := ze_status (nth (zright l start - 1) l zdummy) in
            if zvalid l start exec required then
              let change_cost := if zmatch status required then 0 else cost status required in
              let from := tsub start change_cost in
              let l' := zadd (ZE index ZEnd (tadd from exec) required) (zadd (ZE index ZStart from required) l) in
              match update_zones index (zset tl z l') rest start exec with
              | None => None
              | Some (tl', ts) =>
                  Some (tl', if negb (Nat.eqb status required) && negb (Nat.eqb required 0)
                             then ZT z status required from start :: ts else ts)
              end
            else None
        end
    end.
End Costs.
