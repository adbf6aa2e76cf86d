(** Specification for C115: what a landscape set up from tables should be. *)
From Coq Require Import ZArith List Bool.
From Verif Require Import LandscapeModel LandscapeProofs SetupLandModel.
Import ListNotations.
Local Open Scope Z_scope.

(** The rows of the table of roads: from, to, length, workload. *)
Definition rows (rs : roads_info) : list (nat * nat * Z * Z) :=
  concat (map (fun x => map (fun y => (fst x, fst (fst y), snd (fst y), snd y)) (snd x)) rs).
(** The names the tables define, and those the table of roads mentions. *)
Definition defined (ps : platforms_info) (ws : warehouses_info) (n : nat) : Prop := In n (map fst ps) \/ In n (map fst ws).
Definition mentioned (rs : roads_info) (n : nat) : Prop := In n (map fst rs) \/ exists a len load, In (a, n, len, load) (rows rs).
(** A row of the table of roads begins or ends there. *)
Definition has_row (rs : roads_info) (n : nat) : Prop := exists a b len load, In (a, b, len, load) (rows rs) /\ (n = a \/ n = b).
(** A road of the land graph between the nodes the row names. *)
Definition road_of (names : list nat) (row : nat * nat * Z * Z) (r : (nat * nat * Z) * Z) : Prop :=
  let '(a, b, len, load) := row in let '((u, v, w), bw) := r in
  nth_error names u = Some a /\ nth_error names v = Some b /\ w = len /\ bw = load.
(** Each road is listed once, from one of its ends, with a positive length, and leads elsewhere. *)
Definition listed_once (rs : roads_info) : Prop :=
  (forall a b len load, In (a, b, len, load) (rows rs) -> a <> b /\ 0 < len) /\
  forall i j a b len load len' load', nth_error (rows rs) i = Some (a, b, len, load) ->
    nth_error (rows rs) j = Some (a, b, len', load') \/ nth_error (rows rs) j = Some (b, a, len', load') -> i = j.
