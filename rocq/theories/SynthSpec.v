(** Specification for C112: what the generator of synthetic work graphs should make. *)
From Coq Require Import ZArith QArith List Bool Permutation Relations.
From Verif Require Import TimeModel MomentumModel GraphModel ScheduleSpec Digraph TopoModel TopoTheorems TraverseModel TraverseProofs ScheduleInv PipelineTheorems SynthModel.
Import ListNotations.
Local Open Scope Z_scope.

(** Numbers of random.random(). *)
Definition unit_draws (u : nat -> Q) : Prop := forall n, (0 <= u n)%Q /\ (u n < 1)%Q.
(** Requirements that can be met: at least one, one per profession, each of at least one worker
    and not more than the maximum; at most 4500 hours of work for one worker. *)
Definition good_req (r : req) : Prop := 1 <= r_min r <= r_max r /\ 0 <= r_volume r <= 4500.
Definition good_reqs (l : list req) : Prop := l <> [] /\ NoDup (map r_kind l) /\ Forall good_req l.
Definition good_work (w : gwork) : Prop := good_reqs (gw_reqs w) /\ (0 <= gw_volume w)%Q.
(** A work graph of these works: one start before and one finish after all of them. *)
Record legal_graph (unit : Q -> Z) (works : list gwork) (w : work_graph) : Prop := {
  lg_nodes : Permutation (wg_nodes w) (seq 0 (length works + 2));
  lg_ends : exists middle, wg_nodes w = wg_start w :: middle ++ [wg_finish w];
  lg_order : topological (linked (wg_graph w)) (wg_nodes w);
  lg_graph : graph_ok (wg_graph w) (wg_nodes w);
  lg_types : forall e, In e (g_edges (wg_graph w)) -> (e_type e = FS \/ e_type e = FFS) /\ e_lag e = 0;
  lg_start : forall n, In n (wg_nodes w) -> path0 (depends_on (wg_graph w)) (wg_start w) n;
  lg_finish : forall n, In n (wg_nodes w) -> path0 (depends_on (wg_graph w)) n (wg_finish w);
  lg_works : forall n x, nth_error works n = Some x -> g_unit (wg_graph w) n = WU false (gw_reqs x) (unit (gw_volume x));
  lg_service : (length works <= wg_start w)%nat /\ (length works <= wg_finish w)%nat /\ forall n, (length works <= n)%nat -> g_unit (wg_graph w) n = WU true [] 0 }.

(** The works "handing stage", one for each cluster, in the order of creation. *)
Definition is_handing (w : gwork) : bool := match gw_name w with Handing => true | _ => false end.
Definition handing_stages (works : list gwork) : list nat :=
  filter (fun n => match nth_error works n with Some w => is_handing w | None => false end) (seq 0 (length works)).
Definition cluster_number (works : list gwork) : nat := length (handing_stages works).
(** The links between clusters. A cluster may have a slave, so of two handing stages in
    succession one may depend on what is before both. *)
Definition follows_mode (m : mode) (works : list gwork) (R : nat -> nat -> Prop) : Prop :=
  forall i n, (2 <= i)%nat -> nth_error (handing_stages works) i = Some n ->
    match m with
    | Parallel => exists first, nth_error (handing_stages works) 0 = Some first /\ R first n
    | Sequential => exists before, (nth_error (handing_stages works) (i - 1) = Some before \/ nth_error (handing_stages works) (i - 2) = Some before) /\ R before n
    | General => exists road w, nth_error works road = Some w /\ gw_name w = MinRoad /\ R road n
    end.
(** A project: a legal work graph over works whose requirements can be met, with two vertices
    more than works. *)
Record good_project (unit : Q -> Z) (p : project) (w : work_graph) : Prop := {
  gp_graph : pr_graph p = Ends w;
  gp_legal : legal_graph unit (pr_works p) w;
  gp_works : Forall good_work (pr_works p);
  gp_count : length (wg_nodes w) = (length (pr_works p) + 2)%nat }.
