(** Model of the Momentum timeline with its materials and zones
    (scheduler/timeline/momentum_timeline.py) and of the list scheduler over it. Extends
    [ScheduleModel], whose landscape is empty. *)
From Coq Require Import ZArith List Bool.
From Verif Require Import TimeModel MomentumModel GraphModel ScheduleModel ZoneModel.
From Verif Require SupplyModel.
Import ListNotations.
Local Open Scope Z_scope.

(** A while loop with a bound on its rounds; [inl] goes on, [inr] leaves. The bound is a
    binary number, so that it can be large. *)
Fixpoint repeat_until {A B : Type} (rounds : positive) (f : A -> A + B) (a : A) : A + B :=
  match rounds with
  | xH => f a
  | xO q => match repeat_until q f a with inl a' => repeat_until q f a' | inr b => inr b end
  | xI q => match f a with
            | inl a' => match repeat_until q f a' with inl a'' => repeat_until q f a'' | inr b => inr b end
            | inr b => inr b
            end
  end.

(** Every round makes the time greater and times do not exceed infinity (proved to
    suffice). *)
Definition search_bound : positive := Z.to_pos (TIME_INF + 2).

Section Site.
  Variable g : graph.
  Variable est : nat -> list worker -> Z.
  (** The state of the material and of the zone timeline, and what the worker timeline asks
      them. [None] is an exception. The materials and zone requirements are those of the
      node. *)
  Variable site : Type.
  (** hybrid_supply_timeline.py:83-102, find_min_material_time: node, start *)
  Variable material_time : site -> nat -> Z -> option Z.
  (** hybrid_supply_timeline.py:181-193, deliver_resources: node, start *)
  Variable deliver : site -> nat -> Z -> option (Z * site).
  (** zone_timeline.py:36-81, find_min_start_time: node, start, execution time *)
  Variable zone_time : site -> nat -> Z -> Z -> option Z.
  (** zone_timeline.py:246-271, update_timeline: index, node, start, execution time *)
  Variable occupy : site -> Z -> nat -> Z -> Z -> option site.

  (** momentum_timeline.py:138-158, one round of the loop *)
  Definition agree (x : site) (n : nat) (exec : Z) (workers : Z -> option Z) (cur : Z) : Z + option Z :=
    match workers cur with
    | None => inr None
    | Some c =>
        match material_time x n c with
        | None => inr None
        | Some mt =>
            if tlt c mt then inl mt
            else match zone_time x n c exec with
                 | None => inr None
                 | Some zt => if tlt c zt then inl zt else inr (Some c)
                 end
        end
    end.

  (** momentum_timeline.py:74-162, find_min_start_time_with_additional *)
  Definition site_find (sd : sched) (sx : mstate * site) (n : nat) (team : list worker)
             (independent : bool) (assigned : option Z) (apt : Z)
    : option (Z * Z * list (Z * Z)) :=
    let '(s, x) := sx in
    match chain_of g n with
    | None => None
    | Some chain =>
        let base := parent_bound g sd assigned apt n in
        let (exec, times) := chain_exec g est (parent_bound g sd assigned apt) base team 0 chain in
        match team with
        | [] =>
            match material_time x n base, zone_time x n base exec with
            | Some mt, Some zt => let st := tmax (tmax base mt) zt in Some (st, st, times)
            | _, _ => None
            end
        | w :: _ =>
            match (match assigned with
                   | Some a => Some a
                   | None =>
                       match repeat_until search_bound
                               (agree x n exec (fun cur => find_min_start_time (m_tl s) (w_contractor w)
                                                  (chain_kinds g chain) independent cur exec team)) base with
                       | inl _ => None
                       | inr r => r
                       end
                   end) with
            | None => None
            | Some st =>
                if validate (tadd st exec) exec team (m_tl s)
                then Some (st, tadd st exec, times) else None
            end
        end
    end.

  (** momentum_timeline.py:424-449, the works of the chain: the materials of every work
      are delivered, and the work waits for them *)
  Fixpoint site_place (team : list worker) (c : nat) (curr : Z) (chain : list nat)
           (times : list (Z * Z)) (sd : sched) (x : site) : option (Z * sched * site) :=
    match chain, times with
    | n :: cr, (lag, t) :: tr =>
        let start0 := tadd curr lag in
        match deliver x n start0 with
        | None => None
        | Some (arrival, x') =>
            let start := tmax start0 arrival in
            let finish := tadd start t in
            site_place team c finish cr tr ((n, SW start finish team c) :: sd) x'
        end
    | _, _ => Some (curr, sd, x)
    end.

  (** momentum_timeline.py:391-454, schedule and _schedule_with_inseparables. The zones are
      those of the first work of the chain. *)
  Definition site_schedule (sd : sched) (sx : mstate * site) (n : nat) (team : list worker)
             (c : nat) (sp : work_spec) (start : option Z) (apt : Z)
    : option (sched * (mstate * site)) :=
    let '(s, x) := sx in
    match chain_of g n, site_find sd sx n team (sp_independent sp) start apt with
    | Some chain, Some (st, _, times0) =>
        let times := match sp_time sp with
                     | Some a => map (fun t => (0, t)) (assigned_exec_times (map (volume_of g) chain) a)
                     | None => times0
                     end in
        match site_place team c st chain times sd x with
        | None => None
        | Some (finish, sd', x') =>
            match update_timeline finish (tsub finish st) team s with
            | None => None
            | Some s' =>
                match occupy x' (Z.of_nat (length sd')) n st (tsub finish st) with
                | None => None
                | Some x'' => Some (sd', (s', x''))
                end
            end
        end
    | _, _ => None
    end.

  Definition site_times (sd : sched) (sx : mstate * site) (n : nat) (team : list worker) (ind : bool)
             (apt : Z) : option (Z * Z) :=
    match site_find sd sx n team ind None apt with
    | Some (st, ft, _) => Some (st, ft) | None => None end.

  (** generic.py:133-190, build_scheduler with a fresh Momentum timeline; the configuration
      of the zones names no statuses for the end. *)
  Definition site_build
             (optimize : nat -> nat -> sched -> mstate * site -> list border -> option (list bool) -> list Z -> option (list Z))
             (contractors : list contractor) (spec : nat -> work_spec) (x0 : site) (apt : Z) (nodes : list nat)
    : outcome (sched * (mstate * site)) :=
    build_loop (mstate * site) site_times site_schedule (reqs_of g) optimize contractors spec
      true apt nodes [] (momentum_init (pool_of contractors), x0).
End Site.

(** ** The landscape: supply and zones *)
Section Landscape.
  (** supply: see [SupplyModel] *)
  Variable route : Z -> nat -> nat -> list nat.
  Variable overcome : nat -> Z.
  Variable holders : nat -> list SupplyModel.depot.
  Variable storage : nat -> nat -> Z.
  (** the platform of a node and the materials it needs (none for a service work) *)
  Variable platform : nat -> nat.
  Variable needs : nat -> SupplyModel.request.
  (** zones: see [ZoneModel] *)
  Variable cost : nat -> nat -> Z.
  Variable zones : nat -> list zreq.

  (** The answers are Times, which do not exceed infinity (time.py:14-20). *)
  Definition land : Type := (SupplyModel.supply * ztimelines)%type.
  Definition land_material_time (x : land) (n : nat) (t : Z) : option Z :=
    match SupplyModel.find_min_material_time route overcome holders storage (fst x) (platform n) t (needs n) with
    | SupplyModel.Fine r => Some (set_time r)
    | _ => None
    end.
  Definition land_deliver (x : land) (n : nat) (t : Z) : option (Z * land) :=
    match SupplyModel.deliver route overcome holders storage (fst x) (platform n) t (needs n) with
    | SupplyModel.Fine (_, r, s) => Some (set_time r, (s, snd x))
    | _ => None
    end.
  Definition land_zone_time (x : land) (n : nat) (t exec : Z) : option Z :=
    option_map set_time (find_min_zone_time cost (snd x) (zones n) t exec).
  Definition land_occupy (x : land) (index : Z) (n : nat) (t exec : Z) : option land :=
    match update_zones cost index (snd x) (zones n) t exec with
    | None => None
    | Some (z, _) => Some (fst x, z)
    end.
  Definition land_build g est :=
    site_build g est land land_material_time land_deliver land_zone_time land_occupy.
End Landscape.
