(** Model of the serial schedule generation scheme (sampo/scheduler/genetic/converter.py:240-318)
    on a site: works may need materials and zones, the chromosome has a part for zones. *)
From Coq Require Import ZArith List Bool Arith.
From Verif Require Import TimeModel MomentumModel GraphModel ScheduleModel ZoneModel SiteModel SgsModel.
From Verif Require SupplyModel.
Import ListNotations.
Local Open Scope Z_scope.
Local Open Scope bool_scope.

Section Decode.
  Variable g : graph.
  Variable est : nat -> list worker -> Z.
  (** See [SgsModel.Decode]. *)
  Variable names : list nat.
  Variable cs : list contractor.
  Variable nodes : list nat.
  Variable ch : chromosome.
  Variable apt : Z.
  (** See [SiteModel.Site]. *)
  Variable site : Type.
  Variable material_time : site -> nat -> Z -> option Z.
  Variable deliver : site -> nat -> Z -> option (Z * site).
  Variable zone_time : site -> nat -> Z -> Z -> option Z.
  Variable occupy : site -> Z -> nat -> Z -> Z -> option site.
  (** The fifth part of the chromosome: for every work the statuses that the zones, in the
      order of the configuration (genetic/utils.py:41, index2zone), shall have after it. *)
  Variable changes : list (list nat).

  (** zone_timeline.py:36-81, find_min_start_time, with the value that the serial scheme hands
      over as the parent time: the result of timeline.schedule, and that of the Momentum
      timeline returns nothing (momentum_timeline.py:391-412), [None]. Without requirements
      the parent time is the result; with one, the first search is bisect_right(None), for
      which the key function raises ValueError (zone_timeline.py:15-28), outer [None]. *)
  Definition zone_change_time (row : list nat) (parent : option Z) : option (option Z) :=
    match row with
    | [] => Some parent
    | _ => None
    end.
  (** converter.py:302-311: the statuses after the work. Only [None] is ever found, which
      equals [ft], so that nothing is recorded. *)
  Definition change_zones (w : nat) (x : site) : option site :=
    match nth_error changes w with
    | None => None
    | Some row => match zone_change_time row None with
                  | None => None
                  | Some _ => Some x
                  end
    end.

  (** converter.py:277-311, one work *)
  Definition site_serial_step (first : bool) (w : nat) (sd : sched) (sx : mstate * site)
    : option (sched * (mstate * site)) :=
    match nth_error nodes w, nth_error (ch_rows ch) w with
    | Some n, Some (amounts, ci) =>
        let sp := ch_spec ch n in
        match nth_error cs ci with
        | None => None
        | Some c =>
            match serial_team names c amounts (reqs_of g n) with
            | None => None
            | Some team0 =>
                match apply_spec (sp_workers sp) (reqs_of g n) team0 with
                | None => None
                | Some team =>
                    match site_find g est site material_time zone_time sd sx n team (sp_independent sp) None apt with
                    | None => None
                    | Some (st, _, _) =>
                        match site_schedule g est site material_time deliver zone_time occupy sd sx n team (ct_id c) sp
                                (Some (if first then apt else st)) apt with
                        | None => None
                        | Some (sd', (s', x')) =>
                            match change_zones w x' with
                            | None => None
                            | Some x'' => Some (sd', (s', x''))
                            end
                        end
                    end
                end
            end
        end
    | _, _ => None
    end.
  Fixpoint site_serial_loop (first : bool) (order : list nat) (sd : sched) (sx : mstate * site)
    : option (sched * (mstate * site)) :=
    match order with
    | [] => Some (sd, sx)
    | w :: r => match site_serial_step first w sd sx with
                | None => None
                | Some (sd', sx') => site_serial_loop false r sd' sx'
                end
    end.
  (** converter.py:240-318, serial_schedule_generation_scheme: the schedule, its start and what
      is left of the site *)
  Definition site_serial_decode (x0 : site) : option (sched * Z * site) :=
    match with_borders names ch 0 cs with
    | None => None
    | Some bcs =>
        match site_serial_loop true (ch_order ch) [] (momentum_init (pool_of bcs), x0) with
        | None => None
        | Some (sd, (_, x)) => Some (sd, first_start apt sd None, x)
        end
    end.
End Decode.

(** The site of [SiteModel.Landscape]. *)
Definition land_serial_decode route overcome holders storage platform needs cost zones
           (g : graph) (est : nat -> list worker -> Z) (names : list nat) (cs : list contractor) (nodes : list nat)
           (ch : chromosome) (apt : Z) (changes : list (list nat)) (x0 : land) : option (sched * Z * land) :=
  site_serial_decode g est names cs nodes ch apt land
    (land_material_time route overcome holders storage platform needs)
    (land_deliver route overcome holders storage platform needs)
    (land_zone_time cost zones) (land_occupy cost zones) changes x0.
