(** Model of the list scheduler: sampo/scheduler/generic.py build_scheduler, the
    contractor search, and the schedule methods of the two worker timelines. Works
    without materials and zone requirements; the landscape is empty. *)
From Coq Require Import ZArith List Bool.
From Verif Require Import TimeModel MomentumModel JITModel GraphModel.
Import ListNotations.
Local Open Scope Z_scope.
Local Open Scope bool_scope.

(** schemas/schedule_spec.py:11-31, WorkSpec. Sets and dictionaries are lists. *)
Record work_spec := WSpec { sp_contractors : list nat; sp_workers : list (nat * Z);
                            sp_time : option Z; sp_independent : bool }.
(** schemas/contractor.py: id and workers *)
Record contractor := Ct { ct_id : nat; ct_workers : list (nat * Z) }.

(** Outcome of a call that may raise: NoSufficientContractorError is [NoContractor],
    every other exception is [Crash]. *)
Inductive outcome (A : Type) := Done (a : A) | NoContractor | Crash.
Arguments Done {A} a.
Arguments NoContractor {A}.
Arguments Crash {A}.

(** schedule_spec.py:27-31, is_contractor_enabled and filter_contractors *)
Definition contractor_enabled (s : work_spec) (c : nat) : bool :=
  match sp_contractors s with
  | [] => true
  | l => existsb (Nat.eqb c) l
  end.
Definition filter_contractors (s : work_spec) (cs : list contractor) : list contractor :=
  filter (fun c => contractor_enabled s (ct_id c)) cs.

(** scheduler/utils/__init__.py:12-24, get_worker_contractor_pool, keyed by contractor
    and kind *)
Definition pool_of (cs : list contractor) : list (nat * nat * Z) :=
  concat (map (fun c => map (fun w => ((ct_id c, fst w), snd w)) (ct_workers c)) cs).
Fixpoint pool_get (p : list (nat * nat * Z)) (a : nat * nat) : option Z :=
  match p with
  | [] => None
  | (b, n) :: r => if agent_eqb b a then Some n else pool_get r a
  end.

(** scheduler/utils/multi_contractor.py:14-42, get_worker_borders: (kind, min, max,
    available) for each requirement; [None] is the three empty lists returned when a
    requirement cannot be met. *)
Record border := Bd { bd_kind : nat; bd_min : Z; bd_max : Z; bd_count : Z }.
Fixpoint get_worker_borders (p : list (nat * nat * Z)) (c : nat) (reqs : list req)
  : option (list border) :=
  match reqs with
  | [] => Some []
  | r :: rest =>
      match pool_get p (c, r_kind r) with
      | None => None
      | Some n =>
          if n <? r_min r then None
          else match get_worker_borders p c rest with
               | None => None
               | Some bs => Some (Bd (r_kind r) (r_min r) (Z.min (r_max r) n) n :: bs)
               end
      end
  end.

(** dict.get for a dictionary given as a list of pairs *)
Fixpoint assoc_get (l : list (nat * Z)) (k : nat) : option Z :=
  match l with
  | [] => None
  | (k', n) :: r => if Nat.eqb k' k then Some n else assoc_get r k
  end.

(** scheduler/base.py:91-128, optimize_resources_using_spec. [counts] are the counts of
    the team before the call; [optimize flags counts] is the optimizer, which receives
    the positions it may change ([None] for all) and answers the new counts. The answer
    [None] is an exception: KeyError, or one raised by the optimizer. *)
Fixpoint all_spec_counts (spec : list (nat * Z)) (kinds : list nat) : option (list Z) :=
  match kinds with
  | [] => Some []
  | k :: r =>
      match assoc_get spec k, all_spec_counts spec r with
      | Some n, Some l => Some (n :: l)
      | _, _ => None
      end
  end.
Definition spec_flag (spec : list (nat * Z)) (k : nat) : bool :=
  match assoc_get spec k with Some n => negb (0 <? n) | None => true end.
Definition spec_count (spec : list (nat * Z)) (kc : nat * Z) : Z :=
  match assoc_get spec (fst kc) with Some n => if 0 <? n then n else snd kc | None => snd kc end.
Definition optimize_using_spec (spec : list (nat * Z)) (kinds : list nat) (counts : list Z)
           (optimize : option (list bool) -> list Z -> option (list Z)) : option (list Z) :=
  if Nat.eqb (length spec) (length kinds) then all_spec_counts spec kinds
  else
    match spec with
    | [] => optimize None counts
    | _ => optimize (Some (map (spec_flag spec) kinds))
                    (map (spec_count spec) (combine kinds counts))
    end.

(** multi_contractor.py:45-83, run_contractor_search: the loop over the filtered
    contractors. The best size is [None] for float('inf'). *)
Definition contractor_size (c : contractor) : Z := fold_right Z.add 0 (map snd (ct_workers c)).
Section ContractorSearch.
  Variable team : Type.
  Variable runner : contractor -> outcome (Z * Z * team).
  Fixpoint search_loop (cs : list contractor) (best : option contractor)
           (best_finish : Z) (best_size : option Z) : outcome (option contractor) :=
    match cs with
    | [] => Done best
    | c :: r =>
        match runner c with
        | NoContractor => NoContractor
        | Crash => Crash
        | Done (_, finish, _) =>
            let smaller := match best_size with None => true | Some b => contractor_size c <? b end in
            if negb (is_inf finish) && (tlt finish best_finish || (teq finish best_finish && smaller))
            then search_loop r (Some c) finish (Some (contractor_size c))
            else search_loop r best best_finish best_size
        end
    end.
  Definition run_contractor_search (cs : list contractor) (s : work_spec)
    : outcome (Z * Z * contractor * team) :=
    match search_loop (filter_contractors s cs) None time_inf None with
    | NoContractor => NoContractor
    | Crash => Crash
    | Done None => NoContractor
    | Done (Some c) =>
        match runner c with
        | NoContractor => NoContractor
        | Crash => Crash
        | Done (st, ft, tm) => Done (st, ft, c, tm)
        end
    end.
End ContractorSearch.
Arguments search_loop {team} runner cs best best_finish best_size.
Arguments run_contractor_search {team} runner cs s.

(** scheduler/timeline/utils.py:5-59, get_exec_times_from_assigned_time_for_chain.
    Exact integer arithmetic instead of floats: int(remaining * (volume / total)) is the
    truncated quotient of remaining * volume by total. A chain is never empty, so the
    division by its length never fails. *)
Fixpoint proportional_times (total remaining : Z) (volumes : list Z) : list Z :=
  match volumes with
  | [] => []
  | [_] => [remaining]
  | v :: r =>
      let t := if 0 <? total then set_time (Z.quot (remaining * v) total) else 0 in
      t :: proportional_times (total - v) (tsub remaining t) r
  end.
Definition assigned_exec_times (volumes : list Z) (assigned : Z) : list Z :=
  let total := fold_right Z.add 0 volumes in
  let n := length volumes in
  if total <=? 0 then
    let node_time := match tfloordiv assigned (Z.of_nat n) with Some t => t | None => 0 end in
    repeat node_time (n - 1) ++ [tsub assigned (tmul node_time (Z.of_nat (n - 1)))]
  else proportional_times total assigned volumes.

(** The parameters of scheduling: graph, estimator (the time for the unit of a node with
    a team) *)
Section Timelines.
  Variable g : graph.
  Variable est : nat -> list worker -> Z.

  Definition reqs_of (n : nat) : list req := u_reqs (g_unit g n).
  Definition volume_of (n : nat) : Z := u_volume (g_unit g n).

  (** momentum_timeline.py:102-107 and 109-111, the earliest start given by the parents
      and the two assigned times *)
  Definition parent_bound (sd : sched) (assigned : option Z) (apt : Z) (n : nat) : Z :=
    let m := min_start_time g sd n in
    tmax (match assigned with Some a => tmax m a | None => m end) apt.

  (** momentum_timeline.py:115-126, execution time of the chain; [bound] gives the
      parent times of the chain nodes, [base] the one of the head *)
  Fixpoint chain_exec (bound : nat -> Z) (base : Z) (team : list worker) (exec : Z)
           (chain : list nat) : Z * list (Z * Z) :=
    match chain with
    | [] => (exec, [])
    | n :: r =>
        let t := match reqs_of n with [] => 0 | _ => est n team end in
        let lag_req := tsub (tsub (bound n) base) exec in
        let lag := if 0 <? lag_req then lag_req else 0 in
        let (e, l) := chain_exec bound base team (tadd exec (tadd lag t)) r in
        (e, (lag, t) :: l)
    end.

  Definition chain_kinds (chain : list nat) : list (bool * list nat) :=
    map (fun n => (u_service (g_unit g n), map r_kind (reqs_of n))) chain.

  (** momentum_timeline.py:74-162, find_min_start_time_with_additional: start, finish and
      the (lag, time) of the chain nodes. The loop at 138-158 ends after its first pass
      because materials and zones never delay. [None] is an exception. *)
  Definition momentum_find (sd : sched) (s : mstate) (n : nat) (team : list worker)
             (independent : bool) (assigned : option Z) (apt : Z)
    : option (Z * Z * list (Z * Z)) :=
    match chain_of g n with
    | None => None
    | Some chain =>
        let base := parent_bound sd assigned apt n in
        let (exec, times) := chain_exec (parent_bound sd assigned apt) base team 0 chain in
        match team with
        | [] => Some (base, base, times)
        | w :: _ =>
            match (match assigned with
                   | Some a => Some a
                   | None => find_min_start_time (m_tl s) (w_contractor w) (chain_kinds chain)
                                                 independent base exec team
                   end) with
            | None => None
            | Some st =>
                if validate (tadd st exec) exec team (m_tl s)
                then Some (st, tadd st exec, times) else None
            end
        end
    end.

  (** momentum_timeline.py:424-449, the works of the chain, in order, and the finish *)
  Fixpoint place_chain (team : list worker) (c : nat) (curr : Z) (chain : list nat)
           (times : list (Z * Z)) (sd : sched) : Z * sched :=
    match chain, times with
    | n :: cr, (lag, t) :: tr =>
        let start := tadd curr lag in
        let finish := tadd start t in
        place_chain team c finish cr tr ((n, SW start finish team c) :: sd)
    | _, _ => (curr, sd)
    end.

  (** momentum_timeline.py:391-454, schedule and _schedule_with_inseparables *)
  Definition momentum_schedule (sd : sched) (s : mstate) (n : nat) (team : list worker)
             (c : nat) (sp : work_spec) (start : option Z) (apt : Z)
    : option (sched * mstate) :=
    match chain_of g n, momentum_find sd s n team (sp_independent sp) start apt with
    | Some chain, Some (st, _, times0) =>
        let times := match sp_time sp with
                     | Some a => map (fun t => (0, t)) (assigned_exec_times (map volume_of chain) a)
                     | None => times0
                     end in
        let (finish, sd') := place_chain team c st chain times sd in
        match update_timeline finish (tsub finish st) team s with
        | None => None
        | Some s' => Some (sd', s')
        end
    | _, _ => None
    end.

  (** just_in_time_timeline.py:62-86, the execution time of the chain *)
  Fixpoint jit_chain_exec (sd : sched) (team : list worker) (finish : Z) (chain : list nat) : Z :=
    match chain with
    | [] => finish
    | n :: r => jit_chain_exec sd team (tadd (tmax finish (min_start_time g sd n)) (est n team)) r
    end.

  (** just_in_time_timeline.py:35-110, find_min_start_time_with_additional: start and
      finish *)
  Definition jit_find (sd : sched) (s : jtimeline) (n : nat) (team : list worker)
             (independent : bool) (apt : Z) : option (Z * Z) :=
    match sd with
    | [] => Some (apt, apt)
    | _ =>
        match chain_of g n with
        | None => None
        | Some chain =>
            let exec := jit_chain_exec sd team 0 chain in
            match find_agents_time independent team s 0 with
            | None => None
            | Some st => Some (st, tadd st exec)
            end
        end
    end.

  (** just_in_time_timeline.py:284-317, the loop over the chain. [times] are the assigned
      times, if any. [None] is the failed assertion on the inseparable parent or a
      KeyError. *)
  Fixpoint jit_place (team : list worker) (c : nat) (curr : Z) (chain : list nat)
           (times : option (list Z)) (sd : sched) : option (Z * sched) :=
    match chain with
    | [] => Some (curr, sd)
    | n :: cr =>
        let mpt := min_start_time g sd n in
        let ok := match inseparable_parent g n with
                  | None => true
                  | Some q => match sd_get sd q with
                              | None => false
                              | Some w => sw_finish w <=? mpt
                              end
                  end in
        if ok then
          let (t, tr) := match times with
                         | None => (est n team, None)
                         | Some [] => (est n team, Some [])
                         | Some (t :: tr) => (t, Some tr)
                         end in
          let start := tmax (tadd curr 0) mpt in
          let finish := tadd start t in
          jit_place team c finish cr tr ((n, SW start finish team c) :: sd)
        else None
    end.

  (** just_in_time_timeline.py:233-323, schedule and _schedule_with_inseparables *)
  Definition jit_schedule (sd : sched) (s : jtimeline) (n : nat) (team : list worker)
             (c : nat) (sp : work_spec) (start : option Z) (apt : Z)
    : option (sched * jtimeline) :=
    match chain_of g n with
    | None => None
    | Some chain =>
        match (match start with
               | Some a => Some a
               | None => match jit_find sd s n team (sp_independent sp) apt with
                         | Some (st, _) => Some st | None => None end
               end) with
        | None => None
        | Some st =>
            let times := match sp_time sp with
                         | Some a => Some (assigned_exec_times (map volume_of chain) a)
                         | None => None
                         end in
            match jit_place team c st chain times sd with
            | None => None
            | Some (finish, sd') =>
                match jit_update (sp_independent sp) finish team s with
                | None => None
                | Some s' => Some (sd', s')
                end
            end
        end
    end.
End Timelines.

(** multi_contractor.py:26-38: the workers of contractor [c] for the borders, with counts
    in the order of the requirements *)
Definition team_of_counts (c : nat) (bs : list border) (counts : list Z) : list worker :=
  map (fun kc => Wk c (fst kc) (snd kc)) (combine (map bd_kind bs) counts).

(** The list scheduler over either timeline. *)
Section Generic.
  Variable tstate : Type.
  (** the timeline's find_min_start_time_with_additional (start and finish) and schedule *)
  Variable find : sched -> tstate -> nat -> list worker -> bool -> Z -> option (Z * Z).
  Variable schedule : sched -> tstate -> nat -> list worker -> nat -> work_spec -> option Z -> Z
                      -> option (sched * tstate).
  Variable reqs : nat -> list req.
  (** the resource optimizer: node, contractor, state, borders, positions, counts *)
  Variable optimize : nat -> nat -> sched -> tstate -> list border -> option (list bool)
                      -> list Z -> option (list Z).
  Variable contractors : list contractor.
  Variable spec : nat -> work_spec.

  (** generic.py:80-100, run_with_contractor *)
  Definition run_with_contractor (sd : sched) (s : tstate) (n : nat) (apt : Z) (c : contractor)
    : outcome (Z * Z * list worker) :=
    match get_worker_borders (pool_of contractors) (ct_id c) (reqs n) with
    | None => Done (apt, time_inf, [])
    | Some bs =>
        match optimize_using_spec (sp_workers (spec n)) (map bd_kind bs) (map bd_count bs)
                                  (optimize n (ct_id c) sd s bs) with
        | None => Crash
        | Some counts =>
            let team := map (fun kc => Wk (ct_id c) (fst kc) (snd kc))
                            (combine (map bd_kind bs) counts) in
            match find sd s n team (sp_independent (spec n)) apt with
            | None => Crash
            | Some (st, ft) => Done (st, ft, team)
            end
        end
    end.

  (** generic.py:160-188, one iteration of the loop. At the last node finish_statuses
      answers Time(0) because there are no zones. *)
  Definition build_step (is_first is_last : bool) (apt : Z) (n : nat) (sd : sched) (s : tstate)
    : outcome (sched * tstate) :=
    match run_contractor_search (run_with_contractor sd s n apt) contractors (spec n) with
    | NoContractor => NoContractor
    | Crash => Crash
    | Done (st, _, c, team) =>
        let st1 := if is_first then apt else st in
        let st2 := if is_last then tmax st1 0 else st1 in
        match schedule sd s n team (ct_id c) (spec n) (Some st2) apt with
        | None => Crash
        | Some r => Done r
        end
    end.
  Fixpoint build_loop (is_first : bool) (apt : Z) (nodes : list nat) (sd : sched) (s : tstate)
    : outcome (sched * tstate) :=
    match nodes with
    | [] => Done (sd, s)
    | n :: r =>
        match build_step is_first (match r with [] => true | _ => false end) apt n sd s with
        | NoContractor => NoContractor
        | Crash => Crash
        | Done (sd', s') => build_loop false apt r sd' s'
        end
    end.
End Generic.

(** momentum_timeline.py:64-204, find_min_start_time_with_additional: start and finish *)
Definition momentum_times (g : graph) (est : nat -> list worker -> Z) (sd : sched) (s : mstate) (n : nat)
           (team : list worker) (ind : bool) (apt : Z) : option (Z * Z) :=
  match momentum_find g est sd s n team ind None apt with
  | Some (st, ft, _) => Some (st, ft) | None => None end.

(** generic.py:133-190, build_scheduler with a fresh Momentum timeline *)
Definition momentum_build (g : graph) (est : nat -> list worker -> Z)
           (optimize : nat -> nat -> sched -> mstate -> list border -> option (list bool) -> list Z -> option (list Z))
           (contractors : list contractor) (spec : nat -> work_spec) (apt : Z) (nodes : list nat)
  : outcome (sched * mstate) :=
  build_loop mstate (momentum_times g est) (momentum_schedule g est) (reqs_of g) optimize contractors spec
    true apt nodes [] (momentum_init (pool_of contractors)).

(** the same with a fresh just-in-time timeline *)
Definition jit_build (g : graph) (est : nat -> list worker -> Z)
           (optimize : nat -> nat -> sched -> jtimeline -> list border -> option (list bool) -> list Z -> option (list Z))
           (contractors : list contractor) (spec : nat -> work_spec) (apt : Z) (nodes : list nat)
  : outcome (sched * jtimeline) :=
  build_loop jtimeline (jit_find g est) (jit_schedule g est) (reqs_of g) optimize contractors spec
    true apt nodes [] (jit_init (pool_of contractors)).
