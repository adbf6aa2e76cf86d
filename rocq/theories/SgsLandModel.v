(** Model of the parallel schedule generation scheme (sampo/scheduler/genetic/converter.py:127-237)
    on a site: works may need materials and zones. Extends the part of [SgsModel] whose
    landscape is empty. The scheme reads the part of the chromosome for zones (line 149) and
    does not use it. *)
From Coq Require Import ZArith List Bool Arith.
From Verif Require Import TimeModel MomentumModel JITModel GraphModel ScheduleModel ZoneModel SiteModel JitSiteModel SgsModel.
From Verif Require SupplyModel.
Import ListNotations.
Local Open Scope Z_scope.
Local Open Scope bool_scope.

Section Decode.
  Variable g : graph.
  Variable est : nat -> list worker -> Z.
  (** See [SgsModel.Decode]. *)
  Variable ch : chromosome.
  Variable apt : Z.
  Variable total : nat.
  (** See [SiteModel.Site]; [moment] answers whether the materials and the zones of a work
      allow it to start at a time and to last for a time. *)
  Variable site : Type.
  Variable material_time : site -> nat -> Z -> option Z.
  Variable deliver : site -> nat -> Z -> option (Z * site).
  Variable zone_time : site -> nat -> Z -> Z -> option Z.
  Variable occupy : site -> Z -> nat -> Z -> Z -> option site.
  Variable moment : site -> nat -> Z -> Z -> option bool.

  (** just_in_time_timeline.py:138-186, can_schedule_at_the_moment: an independent work is not
      asked for materials and zones *)
  Definition site_can_schedule (sd : sched) (sx : jtimeline * site) (n : nat) (team : list worker)
             (independent : bool) (start exec : Z) : option bool :=
    match jit_can_schedule g sd (fst sx) n team independent start with
    | Some true => if independent then Some true else moment (snd sx) n start exec
    | r => r
    end.

  Record sstate := SS { ss_sched : sched; ss_tl : jtimeline * site; ss_times : list Z }.
  (** converter.py:193-217, work_scheduled; the configuration of the zones names no statuses
      for the end, so that finish_statuses answers 0 (line 205) *)
  Definition site_try_work (start : Z) (p : pwork) (s : sstate) : option (option sstate) :=
    let n := pw_node p in
    let sp := ch_spec ch n in
    match site_can_schedule (ss_sched s) (ss_tl s) n (pw_team p) (sp_independent sp) start (pw_exec p) with
    | None => None
    | Some false => Some None
    | Some true =>
        match apply_spec (sp_workers sp) (reqs_of g n) (pw_team p) with
        | None => None
        | Some team =>
            let st0 := if Nat.eqb (pw_pos p) 0 then apt else start in
            let st := if Nat.eqb (S (pw_pos p)) total then tmax start 0 else st0 in
            match jsite_schedule g est site material_time deliver zone_time occupy (ss_sched s) (ss_tl s) n team (pw_contractor p)
                    (WSpec (sp_contractors sp) (sp_workers sp) (Some (pw_exec p)) (sp_independent sp)) (Some st) apt with
            | None => None
            | Some (sd', sx') =>
                Some (Some (SS sd' sx' (add_time (tadd st (pw_exec p)) (add_time st (ss_times s)))))
            end
        end
    end.
  (** utilities/linked_list.py, remove_if *)
  Fixpoint site_try_all (start : Z) (l : list pwork) (s : sstate) : option (list pwork * sstate) :=
    match l with
    | [] => Some ([], s)
    | p :: r =>
        match site_try_work start p s with
        | None => None
        | Some None => match site_try_all start r s with Some (l', s') => Some (p :: l', s') | None => None end
        | Some (Some s1) => site_try_all start r s1
        end
    end.

  (** converter.py:219-237, the main loop; outcomes as in [SgsModel.parallel_loop] *)
  Inductive sresult := SFinished (remaining : list pwork) (s : sstate) | SRaised | SLooping.
  Fixpoint site_parallel_loop (fuel ckpt : nat) (start prev : Z) (l : list pwork) (s : sstate) : sresult :=
    match fuel with
    | O => SLooping
    | S fuel' =>
        match l with
        | [] => SFinished [] s
        | _ =>
            match nth_error (ss_times s) ckpt with
            | Some t =>
                if prev =? t then site_parallel_loop fuel' (S ckpt) t prev l s
                else if is_inf t then SFinished l s
                else match site_try_all t l s with
                     | None => SRaised
                     | Some (l', s') => site_parallel_loop fuel' (Nat.min (S ckpt) (length (ss_times s'))) t t l' s'
                     end
            | None =>
                let t := tadd start 1 in
                match site_try_all t l s with
                | None => SRaised
                | Some (l', s') => site_parallel_loop fuel' (Nat.min (S ckpt) (length (ss_times s'))) t prev l' s'
                end
            end
        end
    end.
End Decode.
Arguments SS {site}.
Arguments ss_sched {site}.
Arguments ss_tl {site}.
Arguments ss_times {site}.
Arguments SFinished {site}.
Arguments SRaised {site}.
Arguments SLooping {site}.

(** converter.py:127-237, parallel_schedule_generation_scheme *)
Definition site_parallel_decode (g : graph) (est : nat -> list worker -> Z) (names : list nat) (cs : list contractor)
           (nodes : list nat) (ch : chromosome) (apt : Z)
           (site : Type) material_time deliver zone_time occupy moment (x0 : site) (fuel : nat) : sresult site :=
  match with_borders names ch 0 cs, decode_works g est names cs nodes ch 0 (ch_order ch) with
  | Some bcs, Some works =>
      site_parallel_loop g est ch apt (length (ch_order ch)) site material_time deliver zone_time occupy moment
        fuel 0 (tsub apt 1) (tsub (tsub apt 1) 1) works (SS [] (jit_init (pool_of bcs), x0) [0])
  | _, _ => SRaised
  end.

(** just_in_time_timeline.py:180-184 over the landscape of [SiteModel]: first the materials,
    then the zones. *)
Definition land_moment route overcome holders storage platform needs cost zones (x : land) (n : nat) (t exec : Z) : option bool :=
  match SupplyModel.can_schedule route overcome holders storage (fst x) (platform n) t (needs n) with
  | SupplyModel.Fine true => can_schedule_zones cost (snd x) (zones n) t exec
  | SupplyModel.Fine false => Some false
  | _ => None
  end.
Definition land_parallel_decode route overcome holders storage platform needs cost zones
           (g : graph) (est : nat -> list worker -> Z) (names : list nat) (cs : list contractor) (nodes : list nat)
           (ch : chromosome) (apt : Z) (x0 : land) (fuel : nat) : sresult land :=
  site_parallel_decode g est names cs nodes ch apt land
    (land_material_time route overcome holders storage platform needs)
    (land_deliver route overcome holders storage platform needs)
    (land_zone_time cost zones) (land_occupy cost zones)
    (land_moment route overcome holders storage platform needs cost zones) x0 fuel.
