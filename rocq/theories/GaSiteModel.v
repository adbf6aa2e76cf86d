(** Model of the genetic scheduler on a site with materials and zones: its search
    ([GaSchedModel]) over the decodings of [SgsSiteModel] and [SgsLandModel]. *)
From Coq Require Import ZArith List Bool.
From Verif Require Import TimeModel MomentumModel JITModel GraphModel ScheduleModel ZoneModel SiteModel SgsModel SgsSiteModel SgsLandModel GaModel GaSchedModel.
From Verif Require SupplyModel.
Import ListNotations.
Local Open Scope Z_scope.

Section Site.
  Variable route : Z -> nat -> nat -> list nat.
  Variable overcome : nat -> Z.
  Variable holders : nat -> list SupplyModel.depot.
  Variable storage : nat -> nat -> Z.
  Variable platform : nat -> nat.
  Variable needs : nat -> SupplyModel.request.
  Variable cost : nat -> nat -> Z.
  Variable zones : nat -> list zreq.
  Variables (g : graph) (est : nat -> list worker -> Z) (cs : list contractor) (tb : toolbox) (apt : Z) (x0 : land).
  (** converter.py:92-112 with the serial scheme. The part of the chromosome for the [kz] zones
      of the site is made of zeros (converter.py:61-62) and no operator changes it (operators.py:746-747
      and 773-774 are commented out). *)
  Definition site_serial (kz : nat) (ch : chromosome) : option sched :=
    match land_serial_decode route overcome holders storage platform needs cost zones g est (worker_names cs) cs (tb_nodes tb) ch apt
            (repeat (repeat 0%nat kz) (length (ch_order ch))) x0 with
    | Some (sd, _, _) => Some sd
    | None => None
    end.
  (** converter.py:92-112 with the parallel scheme; [fuel] bounds the iterations of its loop *)
  Definition site_parallel (fuel : nat) (ch : chromosome) : option sched :=
    match land_parallel_decode route overcome holders storage platform needs cost zones g est (worker_names cs) cs (tb_nodes tb) ch apt x0 fuel with
    | SFinished _ s => Some (ss_sched s)
    | _ => None
    end.
End Site.
