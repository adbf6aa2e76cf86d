(** What a project graph is, and how its editing is specified. *)
From Coq Require Import ZArith List Bool.
From Verif Require Import TimeModel MomentumModel GraphModel TraverseModel Digraph TraverseProofs TraverseTheorems.
Import ListNotations.

(** A work graph as users build it: no cycles, the listed nodes are all the ends of edges and
    are listed once, every work but the start has a predecessor and every work but the finish has
    a successor. *)
Record project (w : work_graph) : Prop := {
  pj_acyclic : acyclic (linked (wg_graph w));
  pj_closed : forall x y, linked (wg_graph w) x y -> In x (wg_nodes w) /\ In y (wg_nodes w);
  pj_nodup : NoDup (wg_nodes w);
  pj_start : single_start (wg_graph w) (wg_nodes w) (wg_start w);
  pj_finish : single_finish (wg_graph w) (wg_nodes w) (wg_finish w) }.
(** [a] has to be done before [b]: directly or through other works *)
Definition precedes (w : work_graph) (a b : nat) : Prop := path (linked (wg_graph w)) a b.
Definition precedes_or_is (w : work_graph) (a b : nat) : Prop := a = b \/ precedes w a b.
(** New ids are given to the works one for one. *)
Definition one_to_one (ren : nat -> nat) (l : list nat) : Prop :=
  forall a b, In a l -> In b l -> ren a = ren b -> a = b.
(** the works of a graph but its start and finish *)
Definition inner (w : work_graph) : list nat :=
  filter (fun n => negb (Nat.eqb n (wg_start w)) && negb (Nat.eqb n (wg_finish w))) (wg_nodes w).
