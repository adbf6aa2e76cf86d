(** Specification for C114: what a landscape generated for a work graph should be. *)
From Coq Require Import ZArith List Bool Permutation Relations.
From Verif Require Import TimeModel MomentumModel GraphModel ScheduleSpec Digraph TopoModel TopoTheorems HeadModel HeadProofs LandscapeModel LandscapeProofs LandGenModel.
Import ListNotations.
Local Open Scope Z_scope.

(** Answers of the random generator in their ranges. *)
Definition fair_count (count : nat -> nat -> nat) : Prop := forall x hi, (1 <= hi)%nat -> (1 <= count x hi <= hi)%nat.
Definition fair_choice (pick : nat -> nat -> nat -> nat) : Prop := forall x j k, (0 < k)%nat -> (pick x j k < k)%nat.
Definition fair_shuffle (shuffle : list nat -> list nat) : Prop := forall l, Permutation (shuffle l) l.
(** Some work needs the material; the largest amount a work needs. *)
Definition needed (needs : nat -> list (nat * Z)) (nodes : list nat) (m : nat) (c : Z) : Prop := exists n, In n nodes /\ In (m, c) (needs n).
Definition largest (needs : nat -> list (nat * Z)) (nodes : list nat) (m : nat) (c : Z) : Prop :=
  needed needs nodes m c /\ forall c', needed needs nodes m c' -> c' <= c.
(** What all works together need of a material. *)
Fixpoint sum_for (m : nat) (l : list (nat * Z)) : Z := match l with [] => 0 | (k, c) :: r => (if Nat.eqb k m then c else 0) + sum_for m r end.
Definition total_need (needs : nat -> list (nat * Z)) (nodes : list nat) (m : nat) : Z := fold_right (fun n acc => sum_for m (needs n) + acc) 0 nodes.
(** The roads as LandGraph knows them. *)
Definition land (s : site) : list (nat * nat * Z) := map fst (st_roads s).
(** the roads between two platforms or at a holder *)
Record good_site (nodes : list nat) (P H : nat) (s : site) : Prop := {
  gs_road : forall u v w b, In ((u, v, w), b) (st_roads s) ->
    u <> v /\ (v < P + H)%nat /\ ((u < P)%nat /\ (u < v < P)%nat /\ b = Z.of_nat (length nodes) \/ (P <= u < P + H)%nat /\ (v < u)%nat /\ b = 2 * Z.of_nat (length nodes)) /\
    exists i, 1 <= i /\ w = 50 * i;
  gs_connected : forall u v, (u < P + H)%nat -> (v < P + H)%nat -> u <> v -> exists ids d, route (land s) (fun _ => True) u v ids d;
  gs_routes : exists r, build_routes (P + H) (land s) = Some r }.
(** Each chain of works whose first work is not a service unit is on one platform, each other work is on none. *)
Record placed_once (g : graph) (nodes : list nat) (P : nat) (works : list (nat * nat)) : Prop := {
  po_once : NoDup (map fst works);
  po_platform : forall v p, In (v, p) works -> (p < P)%nat /\ In v nodes;
  po_all : forall v, In v (map fst works) <-> exists h, is_head g nodes h /\ in_chain g h v /\ u_service (g_unit g h) = false;
  po_chain : forall h v p, is_head g nodes h -> in_chain g h v -> In (v, p) works -> In (h, p) works }.
(** The heads on a platform. *)
Definition heads_on (g : graph) (works : list (nat * nat)) (p : nat) : list nat :=
  map fst (filter (fun x => Nat.eqb (snd x) p && match inseparable_parent g (fst x) with None => true | Some _ => false end) works).
(** The draws for one node are distinct, as random.sample would make them. *)
Definition distinct_choice (pick : nat -> nat -> nat -> nat) : Prop :=
  forall x k j j', (j < k)%nat -> (j' < k)%nat -> pick x j k = pick x j' k -> j = j'.
