(** Vocabulary for the statements about material supply. Only the records of depots,
    bookings, calls and deliveries are taken from the model. *)
From Coq Require Import ZArith List Bool Arith.
From Verif Require Import TimeModel MomentumSpec SupplyModel.
Import ListNotations.
Local Open Scope Z_scope.

(** ** Landscapes *)
Definition trip (overcome : nat -> Z) (rs : list nat) : Z := fold_right (fun r a => overcome r + a) 0 rs.
Definition route_ok (bandwidth : nat -> Z) (n : Z) (rs : list nat) : Prop := NoDup rs /\ forall r, In r rs -> n <= bandwidth r.
(** Roads take time; a route for a number of vehicles has no road twice and only roads of that
    bandwidth; the way to a platform and back takes at most [round_trip]; a depot has
    vehicles, and the first of them carries every material in stock. *)
Record landscape_ok (route : Z -> nat -> nat -> list nat) (overcome : nat -> Z) (holders : nat -> list depot)
    (stock : nat -> nat -> option Z) (vehicles bandwidth : nat -> Z) (round_trip : Z) : Prop := {
  lo_overcome : forall r, 0 < overcome r;
  lo_route : forall n p d, In d (holders p) -> route_ok bandwidth n (route n (dp_id d) p) /\ route_ok bandwidth n (route n p (dp_id d));
  lo_bandwidth : forall r, 0 <= bandwidth r;
  lo_trip : forall n p d, In d (holders p) -> trip overcome (route n (dp_id d) p) + trip overcome (route n p (dp_id d)) <= round_trip;
  lo_vehicles : forall p d, In d (holders p) -> 0 < dp_vehicles d /\ vehicles (dp_id d) = dp_vehicles d;
  lo_carries : forall p d, In d (holders p) -> (forall m q, In (m, q) (dp_carries d) -> 0 < q) /\
               forall m n, stock (dp_id d) m = Some n -> exists q, In (m, q) (dp_carries d);
  lo_stock : forall h m n, stock h m = Some n -> 0 <= n;
  lo_depots : forall h, 0 <= vehicles h }.
(** A work needs a material at most once, in an amount that fits the storage of its platform;
    the platform knows its materials. *)
Definition call_ok (storage : nat -> nat -> Z) (material : nat -> nat -> option Z) (horizon : Z) (c : call) : Prop :=
  0 <= c_deadline c <= horizon /\ NoDup (map fst (c_needs c)) /\
  forall m n, In (m, n) (c_needs c) -> n <= storage (c_platform c) m /\ material (c_platform c) m <> None.

(** ** What a history delivered *)
Definition entry := (call * option delivery * Z)%type.
Definition deliveries (h : list entry) : list delivery :=
  concat (map (fun x => match snd (fst x) with Some d => [d] | None => [] end) h).
Fixpoint total_of (m : nat) (r : request) : Z := match r with [] => 0 | (k, c) :: r' => (if Nat.eqb k m then c else 0) + total_of m r' end.
(** The amount of material [m] that left depot [d]. *)
Fixpoint taken (d m : nat) (l : list delivery) : Z :=
  match l with [] => 0 | x :: l' => (if Nat.eqb (dl_depot x) d then total_of m (dl_mats x) else 0) + taken d m l' end.
Definition on_road (r : nat) (bs : list (nat * booking)) : list booking := map snd (filter (fun x => Nat.eqb (fst x) r) bs).
(** The number of vehicles on road [r] at moment [t]. *)
Definition traffic (r : nat) (l : list delivery) (t : Z) : Z := load (on_road r (concat (map dl_roads l))) t.

(** [n] vehicles drive over the roads [rs], one after the other, from time [t]; they are
    through at [t']. *)
Fixpoint drives (overcome : nat -> Z) (n t : Z) (rs : list nat) (bs : list (nat * booking)) (t' : Z) : Prop :=
  match rs, bs with
  | [], [] => t' = t
  | r :: rs', (k, b) :: bs' => k = r /\ t <= b_start b /\ b_end b = b_start b + overcome r /\ b_count b = n /\ drives overcome n (b_end b) rs' bs' t'
  | _, _ => False
  end.

(** [n] is the least number of vehicles of the depot that carries the materials [r]. *)
Definition vehicles_for (d : depot) (r : request) (n : Z) : Prop :=
  (forall m c q, In (m, c) r -> In (m, q) (dp_carries d) -> c <= n * q) /\ exists m c q, In (m, c) r /\ In (m, q) (dp_carries d) /\ (n - 1) * q < c.
(** A delivery comes from a depot; if the depot has the vehicles that are needed, they drive
    from the depot to the platform between departure and arrival, and back from then on. *)
Definition travels (route : Z -> nat -> nat -> list nat) (overcome : nat -> Z) (holders : nat -> list depot) (p : nat) (x : delivery) : Prop :=
  exists d n, In d (holders p) /\ dp_id d = dl_depot x /\ vehicles_for d (dl_mats x) n /\
    (n <= dp_vehicles d -> exists ahead back home, dl_roads x = ahead ++ back /\
    drives overcome n (dl_leaves x) (route n (dp_id d) p) ahead (dl_arrives x) /\
    drives overcome n (dl_arrives x) (route n p (dp_id d)) back home).
(** The answer to a call: a delivery arrives when it is needed or later; it brings materials
    that are needed. *)
Definition answered (route : Z -> nat -> nat -> list nat) (overcome : nat -> Z) (holders : nat -> list depot) (e : entry) : Prop :=
  match e with
  | (c, None, t) => t = c_deadline c
  | (c, Some x, t) => t = dl_arrives x /\ c_deadline c <= t /\ 0 <= dl_leaves x < t /\ travels route overcome holders (c_platform c) x /\
      NoDup (map fst (dl_mats x)) /\ dl_mats x <> [] /\ forall m a, In (m, a) (dl_mats x) -> 0 < a /\ exists n, In (m, n) (c_needs c)
  end.

(** ** The stock of a platform *)
Definition at_platform (p : nat) (h : list entry) : list entry := filter (fun e => Nat.eqb (c_platform (fst (fst e))) p) h.
(** Every work starts when all works before it have their materials. *)
Fixpoint chronological (now : Z) (h : list entry) : Prop :=
  match h with [] => True | (c, _, t) :: h' => now <= c_deadline c /\ chronological t h' end.
(** From [before] on: a work that finds enough in stock takes it, otherwise the storage is
    filled up and the work takes its part; the stock stays between 0 and the capacity. *)
Fixpoint stock_book (m : nat) (capacity before : Z) (h : list entry) : Prop :=
  0 <= before <= capacity /\
  match h with
  | [] => True
  | (c, o, _) :: h' => (c_needs c = [] /\ o = None /\ stock_book m capacity before h') \/
      exists n, c_needs c = [(m, n)] /\
        match o with
        | None => n <= before /\ stock_book m capacity (before - n) h'
        | Some x => before < n /\ dl_mats x = [(m, capacity - before)] /\ stock_book m capacity (capacity - n) h'
        end
  end.
