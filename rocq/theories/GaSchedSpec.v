(** Vocabulary for the statements about the genetic scheduler. *)
From Coq Require Import ZArith List Bool Permutation.
From Verif Require Import TimeModel MomentumModel GraphModel ScheduleModel ScheduleSpec Digraph TopoModel HeadModel HeadProofs SgsModel SgsSpec GaSchedModel.
Import ListNotations.
Local Open Scope Z_scope.

(** All contractors list their professions in the same order. *)
Definition same_profession_order (cs : list contractor) : Prop :=
  forall c, In c cs -> exists later, worker_names cs = map fst (ct_workers c) ++ later.

(** Position by position. *)
Definition at_positions (names : list nat) (amounts borders : list Z) (P : nat -> Z -> Z -> Prop) : Prop :=
  length amounts = length names /\ length borders = length names /\
  forall j k a b, nth_error names j = Some k -> nth_error amounts j = Some a -> nth_error borders j = Some b -> P k a b.

(** An individual: an order of all chains that respects the dependencies between chains and
    the priorities; for every chain an allowed contractor and a number of workers for every
    profession, within the limits of the work (none for professions not required) and
    within the border of the contractor; the borders within the workforces of the
    contractors, and equal to them if borders are not optimized. *)
Record individual_ok (g : graph) (cs : list contractor) (spec : nat -> work_spec) (prio : nat -> Z) (nodes : list nat)
       (workforces : list (list Z)) (optimize : bool) (ch : chromosome) : Prop := {
  io_order : exists heads, Forall2 (fun w n => nth_error nodes w = Some n) (ch_order ch) heads /\ Permutation heads nodes /\
    topological (prerequisite g) heads /\ topological (fun x y => prio x < prio y) heads;
  io_rows : length (ch_rows ch) = length nodes /\
    forall n amounts ci, gene nodes ch n amounts ci ->
      exists c border, nth_error cs ci = Some c /\ nth_error (ch_borders ch) ci = Some border /\
        (sp_contractors (spec n) = [] \/ In (ct_id c) (sp_contractors (spec n))) /\
        at_positions (worker_names cs) amounts border (fun k a b => a <= b /\
          (forall r, In r (u_reqs (g_unit g n)) -> r_kind r = k -> r_min r <= a <= r_max r) /\
          (~ In k (map r_kind (u_reqs (g_unit g n))) -> a = 0));
  io_borders : Forall2 (fun border workforce => at_positions (worker_names cs) border workforce (fun _ b w => 0 <= b <= w))
                       (ch_borders ch) workforces;
  io_fixed : optimize = false -> ch_borders ch = workforces;
  io_spec : forall n, ch_spec ch n = spec n }.

(** The random answers lie in the ranges asked for. *)
Definition draws_ok (d : draws) : Prop :=
  (forall j k lo hi, (lo <= hi)%nat -> (lo <= d_randint d j k lo hi <= hi)%nat) /\
  (forall j c k l, l <> [] -> In (d_border_pick d j c k l) l) /\
  (forall j k l, Permutation (d_order_shuffle d j k l) l) /\
  (forall j k s l, l <> [] -> In (d_order_pick d j k s l) l) /\
  (forall j w l, l <> [] -> In (d_contractor_pick d j w l) l) /\
  (forall j w k l, l <> [] -> In (d_row_pick d j w k l) l).
