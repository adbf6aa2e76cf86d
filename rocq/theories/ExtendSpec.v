(** Specification for C113: what extending a work graph to more professions or names means. *)
From Coq Require Import String ZArith List Bool Permutation Ascii.
From Verif Require Import TimeModel MomentumModel GraphModel TopoModel TraverseModel Digraph TraverseProofs GraphEditSpec ExtendModel.
Import ListNotations.
Local Open Scope string_scope.
Local Open Scope list_scope.

(** A work graph as the constructor of WorkGraph makes it, with one start, one finish and no cycle. *)
Definition legal (w : work_graph) : Prop := project w /\ make_work_graph (wg_graph w) (wg_start w) (wg_finish w) = Ends w.
(** A work of the graph requires this profession; has this name. *)
Definition required (x : xgraph) (k : string) : Prop :=
  exists n r, In n (wg_nodes (x_links x)) /\ In r (x_reqs (x_unit x n)) /\ k_kind r = k.
Definition named (x : xgraph) (s : string) : Prop := exists n, In n (wg_nodes (x_links x)) /\ x_name (x_unit x n) = s.
(** names that may be extended: not the one of the start or the finish *)
Definition own_name (x : xgraph) (s : string) : Prop :=
  named x s /\ s <> x_name (x_unit x (wg_start (x_links x))) /\ s <> x_name (x_unit x (wg_finish (x_links x))).
(** There are [m] of them. *)
Definition number_of (P : string -> Prop) (m : nat) : Prop := exists l, NoDup l /\ (forall s, In s l <-> P s) /\ List.length l = m.
(** the suffixes: " #1", " #2", ... up to [q], and "_0" *)
Definition is_suffix (q : nat) (s : string) : Prop := s = "_0" \/ exists i, (1 <= i <= q)%nat /\ s = append " #" (str i).
(** random.randint gives a number in its range; a set is listed in some order and shuffled *)
Definition fair_pick (pick : nat -> nat -> nat -> nat) : Prop := forall n i k, (0 < k)%nat -> (pick n i k < k)%nat.
Definition fair_order (order : list string -> list string) : Prop := forall l, Permutation (order l) l.
(** The same works and links. *)
Record same_structure (w w' : work_graph) : Prop := {
  ss_project : project w';
  ss_start : wg_start w' = wg_start w;
  ss_finish : wg_finish w' = wg_finish w;
  ss_nodes : Permutation (wg_nodes w') (wg_nodes w);
  ss_edges : Permutation (g_edges (wg_graph w')) (g_edges (wg_graph w));
  ss_parents : forall n, In n (wg_nodes w) -> edges_to (wg_graph w') n = edges_to (wg_graph w) n }.
(** The same requirement for a profession whose name got a suffix. *)
Definition extended_req (q : nat) (r r' : kreq) : Prop :=
  (exists s, is_suffix q s /\ k_kind r' = append (k_kind r) s) /\
  k_volume r' = k_volume r /\ k_min r' = k_min r /\ k_max r' = k_max r /\ k_name r' = k_name r.
(** The name ends with a digit. *)
Definition is_digit (c : ascii) : bool := existsb (Ascii.eqb c) ["0"; "1"; "2"; "3"; "4"; "5"; "6"; "7"; "8"; "9"]%char.
Definition ends_with_digit (s : string) : Prop := exists a c, s = append a (String c "") /\ is_digit c = true.
