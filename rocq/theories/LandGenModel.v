(** Model of get_landscape_by_wg (generator/environment/landscape.py:73-172) and of
    SimpleSynthetic.synthetic_landscape (generator/base.py:113-118). The nodes of the land graph
    are numbered as in the list given to LandGraph: the platforms, then the holders. *)
From Coq Require Import ZArith List Bool Arith.
From Verif Require Import TimeModel MomentumModel GraphModel TopoModel LandscapeModel.
Import ListNotations.
Local Open Scope Z_scope.

(** A warehouse: its node, what it stores, and what each of its vehicles carries. *)
Record warehouse := Wh { wh_node : nat; wh_stock : list (nat * Z); wh_vehicles : list (list (nat * Z)) }.
(** A site: the roads (node, neighbour, length) with their bandwidths in the order of
    construction, the storage of each platform, the platform of each placed work, and the warehouses. *)
Record site := Site { st_roads : list ((nat * nat * Z) * Z); st_storage : list (list (nat * Z)); st_works : list (nat * nat); st_holders : list warehouse }.
(** How the construction ends. [NoRoads] is NoAvailableResources (landscape_graph.py:71-75). *)
Inductive built := Built (s : site) | ZeroDivisionError | NoRoads | NeverEnds.

(** A dictionary of numbers, in the order of insertion. *)
Fixpoint get (d : list (nat * Z)) (k : nat) : option Z :=
  match d with [] => None | (k', v) :: r => if Nat.eqb k k' then Some v else get r k end.
Fixpoint put (d : list (nat * Z)) (k : nat) (v : Z) : list (nat * Z) :=
  match d with [] => [(k, v)] | (k', v') :: r => if Nat.eqb k k' then (k, v) :: r else (k', v') :: put r k v end.
(** defaultdict(int) *)
Definition get0 (d : list (nat * Z)) (k : nat) : Z := match get d k with Some v => v | None => 0 end.
(** landscape.py:79-82 *)
Definition add_need (d : list (nat * Z)) (x : nat * Z) : list (nat * Z) :=
  match get d (fst x) with
  | None => put d (fst x) (snd x)
  | Some v => put d (fst x) (Z.max v (snd x))
  end.
(** landscape.py:75-82, max_materials *)
Definition max_materials (needs : nat -> list (nat * Z)) (nodes : list nat) : list (nat * Z) :=
  fold_left (fun d n => fold_left add_need (needs n) d) nodes [].

(** list.remove *)
Fixpoint remove_first (x : nat) (l : list nat) : list nat :=
  match l with [] => [] | y :: r => if Nat.eqb x y then r else y :: remove_first x r end.
(** landscape.py:105-109 and 144-148: neighbours chosen before are taken out *)
Definition not_yet (neighbours chosen : list nat) : list nat :=
  fold_left (fun tmp x => if mem x neighbours then remove_first x tmp else tmp) chosen chosen.

Section Generate.
  Variable g : graph.
  Variable nodes : list nat.
  (** need_materials() of a work: names and counts *)
  Variable needs : nat -> list (nat * Z).
  (** landscape.py:84, ceil(log(vertex_count)), and 131, ceil(sqrt(log(vertex_count))): the
      numbers of platforms and holders are arguments. Both are 0 for one vertex and positive for
      more. *)
  Variables platforms_number holders_number : nat.
  (** rnd.randint(1, hi) and the [j]-th answer of rnd.choices among [k] values, for the node at this position *)
  Variable count : nat -> nat -> nat.
  Variable pick : nat -> nat -> nat -> nat.
  (** rnd.shuffle *)
  Variable shuffle : list nat -> list nat.

  Definition vertex_count : Z := Z.of_nat (length nodes).
  Definition names : list nat := map fst (max_materials needs nodes).
  Definition maximum (m : nat) : Z := get0 (max_materials needs nodes) m.
  Definition choices (x : nat) (l : list nat) (k : nat) : list nat := map (fun j => nth (pick x j (length l)) l 0%nat) (seq 0 k).
  (** landscape_graph.py:65-69, neighbours *)
  Definition neighbours (roads : list ((nat * nat * Z) * Z)) (x : nat) : list nat := map rd_finish (roads_of (map fst roads) x).
  (** landscape.py:111-116 and 150-155, with landscape_graph.py:87-98 *)
  Definition add_roads (roads : list ((nat * nat * Z) * Z)) (x : nat) (chosen : list nat) (bandwidth : Z) : list ((nat * nat * Z) * Z) :=
    let l := not_yet (neighbours roads x) chosen in
    let lengths := map (fun i => Z.of_nat i * 50) (seq 1 (length l)) in
    roads ++ map (fun i => ((x, nth i l 0%nat, nth i lengths 0), bandwidth)) (seq 0 (length l)).
  (** landscape.py:100-116; [ceil_third] is math.ceil(k / 3) *)
  Definition ceil_third (k : nat) : nat := ((k + 2) / 3)%nat.
  Definition platform_roads (roads : list ((nat * nat * Z) * Z)) (i : nat) : list ((nat * nat * Z) * Z) :=
    if Nat.eqb i (platforms_number - 1) then roads
    else let rest := skipn (i + 1) (seq 0 platforms_number) in
         add_roads roads i (choices i rest (count i (ceil_third (length rest)))) vertex_count.
  (** landscape.py:118-122, the platforms for the heads of chains, before and after the shuffle *)
  Definition heads : list nat := filter (fun n => match inseparable_parent g n with None => true | Some _ => false end) nodes.
  Definition platforms_tmp : list nat :=
    shuffle (concat (repeat (seq 0 platforms_number) (length heads / platforms_number)) ++ firstn (length heads mod platforms_number) (seq 0 platforms_number)).
  (** landscape.py:124-127, for one head *)
  Definition place (x : nat * nat) : option (list (nat * nat)) :=
    if u_service (g_unit g (fst x)) then Some []
    else option_map (map (fun c => (c, snd x))) (chain_of g (fst x)).
  Fixpoint place_all (l : list (nat * nat)) : option (list (nat * nat)) :=
    match l with
    | [] => Some []
    | x :: r => match place x, place_all r with Some a, Some b => Some (a ++ b) | _, _ => None end
    end.
  (** landscape.py:91-97, a platform *)
  Definition platform_storage : list (nat * Z) := map (fun m => (m, Z.max (maximum m) 1)) names.
  (** landscape.py:129-166, the holder with number [i] *)
  Definition sample_materials : list nat := concat (repeat names holders_number).
  Definition holder_names (i : nat) : list nat :=
    match max_materials needs nodes with
    | [] => []
    | _ => firstn ((i + 1) * length names - i * length names) (skipn (i * length names) sample_materials)
    end.
  Definition holder (i : nat) : warehouse :=
    Wh (platforms_number + i) (map (fun m => (m, Z.max (maximum m) 1 * vertex_count)) (holder_names i))
       (repeat (map (fun x => (fst x, snd x / 2)) (max_materials needs nodes)) 20).
  Definition holder_roads (roads : list ((nat * nat * Z) * Z)) (i : nat) : list ((nat * nat * Z) * Z) :=
    let x := (platforms_number + i)%nat in
    let others := map (fun j => (platforms_number + j)%nat) (seq 0 i) ++ seq 0 platforms_number in
    add_roads roads x (choices x others (count x (length others))) (vertex_count * 2).

  Definition get_landscape_by_wg : built :=
    let r1 := fold_left platform_roads (seq 0 platforms_number) [] in
    if Nat.eqb platforms_number 0 then ZeroDivisionError
    else match place_all (combine heads platforms_tmp) with
         | None => NeverEnds
         | Some works =>
             let r2 := fold_left holder_roads (seq 0 holders_number) r1 in
             if all_have_roads (platforms_number + holders_number) (map fst r2)
             then Built (Site r2 (repeat platform_storage platforms_number) works (map holder (seq 0 holders_number)))
             else NoRoads
         end.
End Generate.
