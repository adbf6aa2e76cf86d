(** Model of sampo/scheduler/genetic/converter.py: chromosomes, their decoding by the
    serial and the parallel schedule generation schemes, and the encoding of a schedule.
    Works without materials and zone requirements; the landscape is empty. Fresh
    timelines. *)
From Coq Require Import ZArith List Bool Arith.
From Verif Require Import TimeModel MomentumModel JITModel GraphModel ScheduleModel.
Import ListNotations.
Local Open Scope Z_scope.
Local Open Scope bool_scope.

(** api/genetic_api.py, ChromosomeType: the order of works (indices), a row of amounts
    and a contractor index for every work, the border of every contractor, the
    specification. The part for zones is left out. *)
Record chromosome := Chr { ch_order : list nat; ch_rows : list (list Z * nat);
                           ch_borders : list (list Z); ch_spec : nat -> work_spec }.

(** A list comprehension whose element may raise. *)
Fixpoint map_opt {A B} (f : A -> option B) (l : list A) : option (list B) :=
  match l with
  | [] => Some []
  | x :: r => match f x, map_opt f r with Some y, Some l' => Some (y :: l') | _, _ => None end
  end.
(** The dictionaries from names to positions (genetic/utils.py:41-63) *)
Fixpoint index_of (l : list nat) (x : nat) : option nat :=
  match l with
  | [] => None
  | y :: r => if Nat.eqb y x then Some O else match index_of r x with Some i => Some (S i) | None => None end
  end.

(** utils/__init__.py:20-24, get_worker_contractor_pool: the keys of the pool, in the order
    of first insertion *)
Definition add_name (names : list nat) (k : nat) : list nat :=
  if existsb (Nat.eqb k) names then names else names ++ [k].
Definition worker_names (cs : list contractor) : list nat :=
  fold_left add_name (concat (map (fun c => map fst (ct_workers c)) cs)) [].

(** genetic/utils.py:49-52, contractor_borders: the position of a count is the position of
    the worker within its contractor; the cells not written are zeros. [None] is
    IndexError. *)
Definition contractor_borders (cs : list contractor) : option (list (list Z)) :=
  let width := length (worker_names cs) in
  map_opt (fun c =>
    if Nat.leb (length (ct_workers c)) width
    then Some (map snd (ct_workers c) ++ repeat 0 (width - length (ct_workers c)))
    else None) cs.

(** Scheduler.optimize_resources_using_spec (scheduler/base.py:91-128) with the default
    optimizer, which does nothing: workers of the required kinds get the counts of the
    specification. [None] is KeyError. *)
Definition apply_spec (spec : list (nat * Z)) (reqs : list req) (team : list worker) : option (list worker) :=
  map_opt (fun w =>
    if existsb (Nat.eqb (w_kind w)) (map r_kind reqs) then
      if Nat.eqb (length spec) (length reqs) then
        match assoc_get spec (w_kind w) with
        | Some n => Some (Wk (w_contractor w) (w_kind w) n)
        | None => None
        end
      else Some (Wk (w_contractor w) (w_kind w)
                    (match assoc_get spec (w_kind w) with
                     | Some n => if 0 <? n then n else w_count w
                     | None => w_count w
                     end))
    else Some w) team.

Section Decode.
  Variable g : graph.
  Variable est : nat -> list worker -> Z.
  (** worker_name2index, index2contractor and index2node as lists *)
  Variable names : list nat.
  Variable cs : list contractor.
  Variable nodes : list nat.
  Variable ch : chromosome.
  Variable apt : Z.

  (** converter.py:152-156 and 264-269: the pool with the counts of the border part. [None]
      is KeyError or IndexError. *)
  Definition border_at (ci k : nat) : option Z :=
    match nth_error (ch_borders ch) ci, index_of names k with
    | Some row, Some i => nth_error row i
    | _, _ => None
    end.
  Fixpoint with_borders (ci : nat) (l : list contractor) : option (list contractor) :=
    match l with
    | [] => Some []
    | c :: r =>
        match map_opt (fun kn => match border_at ci (fst kn) with Some n => Some (fst kn, n) | None => None end) (ct_workers c),
              with_borders (S ci) r with
        | Some ws, Some r' => Some (Ct (ct_id c) ws :: r')
        | _, _ => None
        end
    end.

  (** converter.py:285-287, the team of the serial scheme: one worker per requirement *)
  Definition serial_team (c : contractor) (amounts : list Z) (reqs : list req) : option (list worker) :=
    map_opt (fun r =>
      match assoc_get (ct_workers c) (r_kind r), index_of names (r_kind r) with
      | Some _, Some i =>
          match nth_error amounts i with
          | Some n => Some (Wk (ct_id c) (r_kind r) n)
          | None => None
          end
      | _, _ => None
      end) reqs.

  (** converter.py:277-302, one work; [first] when it is the first of the order. There are
      no zones, so the status change at 303-313 never happens. *)
  Definition serial_step (first : bool) (w : nat) (sd : sched) (s : mstate) : option (sched * mstate) :=
    match nth_error nodes w, nth_error (ch_rows ch) w with
    | Some n, Some (amounts, ci) =>
        let sp := ch_spec ch n in
        match nth_error cs ci with
        | None => None
        | Some c =>
            match serial_team c amounts (reqs_of g n) with
            | None => None
            | Some team0 =>
                match apply_spec (sp_workers sp) (reqs_of g n) team0 with
                | None => None
                | Some team =>
                    match momentum_find g est sd s n team (sp_independent sp) None apt with
                    | None => None
                    | Some (st, _, _) =>
                        momentum_schedule g est sd s n team (ct_id c) sp (Some (if first then apt else st)) apt
                    end
                end
            end
        end
    | _, _ => None
    end.
  Fixpoint serial_loop (first : bool) (order : list nat) (sd : sched) (s : mstate) : option (sched * mstate) :=
    match order with
    | [] => Some (sd, s)
    | w :: r => match serial_step first w sd s with
                | None => None
                | Some (sd', s') => serial_loop false r sd' s'
                end
    end.
  (** converter.py:315-316, schedule_start_time *)
  Fixpoint first_start (sd : sched) (found : option Z) : Z :=
    match sd with
    | [] => match found with Some t => t | None => apt end
    | (_, w) :: r =>
        first_start r (match sw_team w with
                       | [] => found
                       | _ => Some (match found with
                                    | Some t => if sw_start w <? t then sw_start w else t
                                    | None => sw_start w end)
                       end)
    end.
  (** converter.py:240-318, serial_schedule_generation_scheme: the schedule and its start *)
  Definition serial_decode : option (sched * Z) :=
    match with_borders 0 cs with
    | None => None
    | Some bcs =>
        match serial_loop true (ch_order ch) [] (momentum_init (pool_of bcs)) with
        | None => None
        | Some (sd, _) => Some (sd, first_start sd None)
        end
    end.

  (** ** The parallel scheme *)

  (** time_computaion.py:12-32, calculate_working_time_cascade *)
  Definition cascade_time (n : nat) (team : list worker) : option Z :=
    match inseparable_parent g n with
    | Some _ => Some 0
    | None => match chain_of g n with
              | None => None
              | Some chain => Some (fold_left (fun t m => tadd t (est m team)) chain 0)
              end
    end.

  (** converter.py:166-182, decode: the workers with a positive amount *)
  Record pwork := PW { pw_pos : nat; pw_node : nat; pw_team : list worker; pw_contractor : nat; pw_exec : Z }.
  Fixpoint parallel_team (c : contractor) (i : nat) (amounts : list Z) : option (list worker) :=
    match amounts with
    | [] => Some []
    | n :: r =>
        if 0 <? n then
          match nth_error names i with
          | None => None
          | Some k =>
              match assoc_get (ct_workers c) k, parallel_team c (S i) r with
              | Some _, Some t => Some (Wk (ct_id c) k n :: t)
              | _, _ => None
              end
          end
        else parallel_team c (S i) r
    end.
  Definition decode_work (pos w : nat) : option pwork :=
    match nth_error nodes w, nth_error (ch_rows ch) w with
    | Some n, Some (amounts, ci) =>
        match nth_error cs ci with
        | None => None
        | Some c =>
            match parallel_team c 0 amounts with
            | None => None
            | Some team =>
                match (match sp_time (ch_spec ch n) with Some t => Some t | None => cascade_time n team end) with
                | None => None
                | Some t => Some (PW pos n team (ct_id c) t)
                end
            end
        end
    | _, _ => None
    end.
  (** converter.py:185-187 *)
  Fixpoint decode_works (pos : nat) (order : list nat) : option (list pwork) :=
    match order with
    | [] => Some []
    | w :: r => match decode_work pos w, decode_works (S pos) r with
                | Some p, Some l => Some (p :: l)
                | _, _ => None
                end
    end.

  (** just_in_time_timeline.py:138-186, can_schedule_at_the_moment. For independent works
      the test of a missing worker comes before the others (KeyError instead of False). *)
  Definition jit_can_schedule (sd : sched) (s : jtimeline) (n : nat) (team : list worker)
             (independent : bool) (start : Z) : option bool :=
    if independent then jit_workers_free true team start s
    else
      match chain_of g n with
      | None => None
      | Some chain =>
          if forallb (fun m => forallb (fun p => existsb (Nat.eqb p) chain ||
                                                 (match sd_get sd p with Some _ => true | None => false end))
                                       (parents g m)) chain
          then if start <? min_start_time g sd n then Some false
               else jit_workers_free false team start s
          else Some false
      end.

  (** general_timeline.py:33-36, update_timeline: only the times of the events, in order *)
  Fixpoint add_time (t : Z) (l : list Z) : list Z :=
    match l with
    | [] => [t]
    | x :: r => if t <? x then t :: l else x :: add_time t r
    end.

  Record pstate := PS { ps_sched : sched; ps_tl : jtimeline; ps_times : list Z }.
  Variable total : nat.
  (** converter.py:194-220, work_scheduled *)
  Definition try_work (start : Z) (p : pwork) (s : pstate) : option (option pstate) :=
    let n := pw_node p in
    let sp := ch_spec ch n in
    match jit_can_schedule (ps_sched s) (ps_tl s) n (pw_team p) (sp_independent sp) start with
    | None => None
    | Some false => Some None
    | Some true =>
        match apply_spec (sp_workers sp) (reqs_of g n) (pw_team p) with
        | None => None
        | Some team =>
            let st0 := if Nat.eqb (pw_pos p) 0 then apt else start in
            let st := if Nat.eqb (S (pw_pos p)) total then tmax start 0 else st0 in
            match jit_schedule g est (ps_sched s) (ps_tl s) n team (pw_contractor p)
                    (WSpec (sp_contractors sp) (sp_workers sp) (Some (pw_exec p)) (sp_independent sp)) (Some st) apt with
            | None => None
            | Some (sd', tl') =>
                Some (Some (PS sd' tl' (add_time (tadd st (pw_exec p)) (add_time st (ps_times s)))))
            end
        end
    end.
  (** utilities/linked_list.py, remove_if (theorem remove_if_correct): the works that remain *)
  Fixpoint try_all (start : Z) (l : list pwork) (s : pstate) : option (list pwork * pstate) :=
    match l with
    | [] => Some ([], s)
    | p :: r =>
        match try_work start p s with
        | None => None
        | Some None => match try_all start r s with Some (l', s') => Some (p :: l', s') | None => None end
        | Some (Some s1) => try_all start r s1
        end
    end.

  (** converter.py:222-238, the main loop. [Looping]: not finished after [fuel] iterations. *)
  Inductive presult := Finished (remaining : list pwork) (s : pstate) | Raised | Looping.
  Fixpoint parallel_loop (fuel ckpt : nat) (start prev : Z) (l : list pwork) (s : pstate) : presult :=
    match fuel with
    | O => Looping
    | S fuel' =>
        match l with
        | [] => Finished [] s
        | _ =>
            match nth_error (ps_times s) ckpt with
            | Some t =>
                if prev =? t then parallel_loop fuel' (S ckpt) t prev l s
                else if is_inf t then Finished l s
                else match try_all t l s with
                     | None => Raised
                     | Some (l', s') => parallel_loop fuel' (Nat.min (S ckpt) (length (ps_times s'))) t t l' s'
                     end
            | None =>
                let t := tadd start 1 in
                match try_all t l s with
                | None => Raised
                | Some (l', s') => parallel_loop fuel' (Nat.min (S ckpt) (length (ps_times s'))) t prev l' s'
                end
            end
        end
    end.
End Decode.

(** converter.py:127-238, parallel_schedule_generation_scheme *)
Definition parallel_decode (g : graph) (est : nat -> list worker -> Z) (names : list nat) (cs : list contractor)
           (nodes : list nat) (ch : chromosome) (apt : Z) (fuel : nat) : presult :=
  match with_borders names ch 0 cs, decode_works g est names cs nodes ch 0 (ch_order ch) with
  | Some bcs, Some works =>
      parallel_loop g est ch apt (length (ch_order ch)) fuel 0 (tsub apt 1) (tsub (tsub apt 1) 1) works
        (PS [] (jit_init (pool_of bcs)) [0])
  | _, _ => Raised
  end.

(** ** Encoding *)

Fixpoint set_nth {A} (i : nat) (x : A) (l : list A) {struct l} : option (list A) :=
  match l, i with
  | [], _ => None
  | _ :: r, O => Some (x :: r)
  | y :: r, S i' => match set_nth i' x r with Some l' => Some (y :: l') | None => None end
  end.
(** converter.py:67-76, the cells written for the workers of one work *)
Fixpoint encode_team (names : list nat) (cs : list contractor) (team : list worker) (r : list Z * nat) : option (list Z * nat) :=
  match team with
  | [] => Some r
  | w :: rest =>
      match index_of names (w_kind w), index_of (map ct_id cs) (w_contractor w) with
      | Some i, Some ci =>
          match set_nth i (w_count w) (fst r) with
          | Some l => encode_team names cs rest (l, ci)
          | None => None
          end
      | _, _ => None
      end
  end.
(** converter.py:77-82, the contractor of a work without workers *)
Definition encode_contractor (cs : list contractor) (sp : work_spec) : option nat :=
  match (match sp_contractors sp with [] => map ct_id cs | l => l end) with
  | [] => None
  | c :: _ => index_of (map ct_id cs) c
  end.
Definition encode_row (names : list nat) (cs : list contractor) (sp : work_spec) (team : list worker) (r : list Z * nat)
  : option (list Z * nat) :=
  match team with
  | [] => match encode_contractor cs sp with Some ci => Some (fst r, ci) | None => None end
  | _ => encode_team names cs team r
  end.
Fixpoint encode_rows (names : list nat) (cs : list contractor) (nodes : list nat) (spec : nat -> work_spec) (sd : sched)
         (order : list nat) (rows : list (list Z * nat)) : option (list (list Z * nat)) :=
  match order with
  | [] => Some rows
  | n :: rest =>
      match index_of nodes n, sd_get sd n with
      | Some w, Some sw =>
          match nth_error rows w with
          | None => None
          | Some r =>
              match encode_row names cs (spec n) (sw_team sw) r with
              | None => None
              | Some r' => match set_nth w r' rows with
                           | Some rows' => encode_rows names cs nodes spec sd rest rows'
                           | None => None
                           end
              end
          end
      | _, _ => None
      end
  end.
(** converter.py:26-86, convert_schedule_to_chromosome *)
Definition encode (names : list nat) (cs : list contractor) (nodes : list nat) (borders : list (list Z))
           (spec : nat -> work_spec) (sd : sched) (order : list nat) : option chromosome :=
  match map_opt (index_of nodes) order,
        encode_rows names cs nodes spec sd order (repeat (repeat 0 (length names), O) (length order)) with
  | Some o, Some rows => Some (Chr o rows borders spec)
  | _, _ => None
  end.
