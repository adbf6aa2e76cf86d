(** Model of the release-time timeline with its materials and zones
    (scheduler/timeline/just_in_time_timeline.py) and of the list scheduler over it. Extends
    the part of [ScheduleModel] whose landscape is empty. *)
From Coq Require Import ZArith List Bool.
From Verif Require Import TimeModel MomentumModel JITModel GraphModel ScheduleModel ZoneModel SiteModel.
From Verif Require SupplyModel.
Import ListNotations.
Local Open Scope Z_scope.

Section Site.
  Variable g : graph.
  Variable est : nat -> list worker -> Z.
  (** The site, as in [SiteModel]. *)
  Variable site : Type.
  Variable material_time : site -> nat -> Z -> option Z.
  Variable deliver : site -> nat -> Z -> option (Z * site).
  Variable zone_time : site -> nat -> Z -> Z -> option Z.
  Variable occupy : site -> Z -> nat -> Z -> Z -> option site.

  (** just_in_time_timeline.py:35-110, find_min_start_time_with_additional: start and
      finish. The loop of lines 88-105 is that of the other timeline ([agree]). *)
  Definition jsite_find (sd : sched) (sx : jtimeline * site) (n : nat) (team : list worker)
             (independent : bool) (apt : Z) : option (Z * Z) :=
    let '(s, x) := sx in
    match sd with
    | [] =>
        match material_time x n apt with
        | None => None
        | Some mt =>
            match zone_time x n mt 0 with
            | None => None
            | Some zt => Some (zt, zt)
            end
        end
    | _ =>
        match chain_of g n with
        | None => None
        | Some chain =>
            let exec := jit_chain_exec g est sd team 0 chain in
            match repeat_until search_bound
                    (agree site material_time zone_time x n exec (find_agents_time independent team s)) 0 with
            | inr (Some st) => Some (st, tadd st exec)
            | _ => None
            end
        end
    end.

  (** just_in_time_timeline.py:284-317, the loop over the chain *)
  Fixpoint jsite_place (team : list worker) (c : nat) (curr : Z) (chain : list nat)
           (times : option (list Z)) (sd : sched) (x : site) : option (Z * sched * site) :=
    match chain with
    | [] => Some (curr, sd, x)
    | n :: cr =>
        let mpt := min_start_time g sd n in
        let ok := match inseparable_parent g n with
                  | None => true
                  | Some q => match sd_get sd q with
                              | None => false
                              | Some w => sw_finish w <=? mpt
                              end
                  end in
        if ok then
          let (t, tr) := match times with
                         | None => (est n team, None)
                         | Some [] => (est n team, Some [])
                         | Some (t :: tr) => (t, Some tr)
                         end in
          let start0 := tmax (tadd curr 0) mpt in
          match deliver x n start0 with
          | None => None
          | Some (arrival, x') =>
              let start := tmax arrival start0 in
              let finish := tadd start t in
              jsite_place team c finish cr tr ((n, SW start finish team c) :: sd) x'
          end
        else None
    end.

  (** just_in_time_timeline.py:233-323, schedule and _schedule_with_inseparables. The zones
      are those of the first work of the chain, from the start that was found (which may be
      earlier than the start of the work) on. *)
  Definition jsite_schedule (sd : sched) (sx : jtimeline * site) (n : nat) (team : list worker)
             (c : nat) (sp : work_spec) (start : option Z) (apt : Z)
    : option (sched * (jtimeline * site)) :=
    let '(s, x) := sx in
    match chain_of g n with
    | None => None
    | Some chain =>
        match (match start with
               | Some a => Some a
               | None => match jsite_find sd sx n team (sp_independent sp) apt with
                         | Some (st, _) => Some st | None => None end
               end) with
        | None => None
        | Some st =>
            let times := match sp_time sp with
                         | Some a => Some (assigned_exec_times (map (volume_of g) chain) a)
                         | None => None
                         end in
            match jsite_place team c st chain times sd x with
            | None => None
            | Some (finish, sd', x') =>
                match jit_update (sp_independent sp) finish team s with
                | None => None
                | Some s' =>
                    match occupy x' (Z.of_nat (length sd')) n st (tsub finish st) with
                    | None => None
                    | Some x'' => Some (sd', (s', x''))
                    end
                end
            end
        end
    end.

  (** generic.py:133-190, build_scheduler with a fresh release-time timeline; the
      configuration of the zones names no statuses for the end. *)
  Definition jsite_build
             (optimize : nat -> nat -> sched -> jtimeline * site -> list border -> option (list bool) -> list Z -> option (list Z))
             (contractors : list contractor) (spec : nat -> work_spec) (x0 : site) (apt : Z) (nodes : list nat)
    : outcome (sched * (jtimeline * site)) :=
    build_loop (jtimeline * site) jsite_find jsite_schedule (reqs_of g) optimize contractors spec
      true apt nodes [] (jit_init (pool_of contractors), x0).
End Site.

(** The landscape with supply and zones, as in [SiteModel]. *)
Definition jland_build route overcome holders storage platform needs cost zones g est :=
  jsite_build g est land (land_material_time route overcome holders storage platform needs)
    (land_deliver route overcome holders storage platform needs) (land_zone_time cost zones) (land_occupy cost zones).
