(** Model of the material supply: sampo/scheduler/timeline/hybrid_supply_timeline.py (the one
    both worker timelines use) and sampo/scheduler/timeline/platform_timeline.py. Times are
    below infinity, where the saturating addition of Time is exact; counts are integers.
    Depots, platforms, roads and materials are numbers. *)
From Coq Require Import ZArith List Bool Arith.
From Verif Require Import TimeModel MomentumSpec.
Import ListNotations.
Local Open Scope Z_scope.

(** Outcome of a call: [Refused] stands for the exceptions NoDepots,
    NotEnoughMaterialsInDepots and NoAvailableResources, [Crashed] for every other exception
    and for loops that go on for ever. *)
Inductive outcome (A : Type) := Fine (a : A) | Refused | Crashed.
Arguments Fine {A}. Arguments Refused {A}. Arguments Crashed {A}.
Definition bind {A B} (o : outcome A) (f : A -> outcome B) : outcome B :=
  match o with Fine a => f a | Refused => Refused | Crashed => Crashed end.

(** ** The events of one resource *)
(** types.py:30-36, ScheduleEvent: the time and the number available from then on. The list
    is in the order of the SortedList; the first one is INITIAL (time 0, though it sorts
    before all others). Since the sequence numbers grow, a new event goes behind all events
    of the same time. *)
Record stock_event := Ev { ev_time : Z; ev_count : Z }.
Definition events := list stock_event.
Fixpoint span (f : stock_event -> bool) (l : events) : events * events :=
  match l with
  | [] => ([], [])
  | e :: r => if f e then let (a, b) := span f r in (e :: a, b) else ([], l)
  end.
(** bisect_right of a Time: the list is split behind the events up to [t] *)
Definition upto (l : events) (t : Z) : events * events := span (fun e => ev_time e <=? t) l.
(** bisect_left of (Time, -1, INITIAL) *)
Definition before (l : events) (t : Z) : events * events := span (fun e => ev_time e <? t) l.
(** SortedList.add *)
Definition add_event (l : events) (t c : Z) : events := let (a, b) := upto l t in a ++ Ev t c :: b.
Definition last_event (l : events) : option stock_event := match rev l with [] => None | e :: _ => Some e end.

(** hybrid_supply_timeline.py:399-429, _update_timeline for one resource: [c] units from [s]
    to [e]; the assertions are lines 413 and 416. The slice of line 415 is empty if [e] is
    not after [s], and so is [mid]. *)
Definition book (l : events) (c s e : Z) : option events :=
  let (pre, rest) := upto l s in
  let (mid, post) := before rest e in
  match last_event pre with
  | None => None
  | Some a =>
      if (ev_count a <? c) || existsb (fun x => ev_count x <? c) mid then None
      else
        let l1 := pre ++ Ev s (ev_count a - c) :: map (fun x => Ev (ev_time x) (ev_count x - c)) mid ++ post in
        match last_event (fst (upto l1 e)) with
        | None => None
        | Some b => Some (add_event l1 e (if ev_time b =? e then ev_count b else ev_count b + c))
        end
  end.

(** hybrid_supply_timeline.py:331-336: the greatest index from [base], below [base + n], of an
    event with too few units *)
Fixpoint last_short (l : events) (req : Z) (base n : nat) : option nat :=
  match n with
  | O => None
  | S n' =>
      match nth_error l (base + n') with
      | Some e => if ev_count e <? req then Some (base + n')%nat else last_short l req base n'
      | None => last_short l req base n'
      end
  end.
Definition time_at (l : events) (i : nat) : Z := match nth_error l i with Some e => ev_time e | None => 0 end.
(** hybrid_supply_timeline.py:326-342, the loop; [None]: more than [fuel] rounds *)
Fixpoint earliest_loop (fuel : nat) (l : events) (req exec last cur : Z) (base : nat) : option Z :=
  if cur <? last then
    match fuel with
    | O => None
    | S fuel' =>
        match last_short l req base (length (fst (upto l (cur + exec))) - base) with
        | None => Some cur
        | Some i =>
            let base' := Nat.min (length l - 1) (i + 1) in
            earliest_loop fuel' l req exec last (time_at l base') base'
        end
    end
  else Some cur.
(** hybrid_supply_timeline.py:305-346, _find_earliest_start_time *)
Definition earliest (l : events) (req parent exec : Z) : option Z :=
  earliest_loop (S (length l)) l req exec (time_at l (length (fst (before l TIME_INF)) - 1)) parent (length (fst (upto l parent)) - 1).

(** ** Depots, roads, platforms *)
(** landscape.py:60-81: a holder with the number of its vehicles and what the first of them
    carries *)
Record depot := Depot { dp_id : nat; dp_vehicles : Z; dp_carries : list (nat * Z) }.
Definition request := list (nat * Z).
Fixpoint amount (m : nat) (r : request) : option Z :=
  match r with [] => None | (k, c) :: r' => if Nat.eqb k m then Some c else amount m r' end.
(** [math.ceil] of a quotient of integers; the code divides floats *)
Definition ceil_div (a b : Z) : Z := - ((- a) / b).
(** hybrid_supply_timeline.py:51-58, _get_necessary_vehicles_amount; [None] is ValueError of
    [max] or ZeroDivisionError *)
Definition vehicles_needed (d : depot) (r : request) : option Z :=
  let loads := concat (map (fun x => match amount (fst x) r with Some c => [(c, snd x)] | None => [] end) (dp_carries d)) in
  if existsb (fun x => snd x =? 0) loads then None
  else match map (fun x => ceil_div (fst x) (snd x)) loads with
       | [] => None
       | x :: l => Some (fold_left Z.max l x)
       end.

(** The supply timelines of all resources: materials and vehicles of depots, vehicles of
    roads, materials of platforms. *)
Record supply := Sup { su_mats : nat -> nat -> option events; su_vehs : nat -> events;
                       su_roads : nat -> events; su_plat : nat -> nat -> option events }.
Definition upd {A} (f : nat -> A) (x : nat) (v : A) : nat -> A := fun y => if Nat.eqb y x then v else f y.
Definition upd2 {A} (f : nat -> nat -> A) (x y : nat) (v : A) : nat -> nat -> A := upd f x (upd (f x) y v).

Section Landscape.
  (** construct_route among the roads of at least that bandwidth, from one node to another:
      the ids of the roads, none if there is no route (see [LandscapeModel]) *)
  Variable route : Z -> nat -> nat -> list nat.
  (** Road.overcome_time *)
  Variable overcome : nat -> Z.
  (** get_sorted_holders for a platform (see [LandscapeModel]) *)
  Variable holders : nat -> list depot.
  (** resource_storage_unit.capacity of a platform *)
  Variable storage : nat -> nat -> Z.

  (** hybrid_supply_timeline.py:365-377: all vehicles in one batch over one road after the
      other *)
  Fixpoint drive (roads : nat -> events) (batch : Z) (t : Z) (rs : list nat) : outcome (Z * list (nat * booking)) :=
    match rs with
    | [] => Fine (t, [])
    | r :: rs' =>
        match earliest (roads r) batch t (overcome r) with
        | None => Crashed
        | Some s => bind (drive roads batch (s + overcome r) rs') (fun x => Fine (fst x, (r, Bk s (s + overcome r) batch) :: snd x))
        end
    end.
  (** hybrid_supply_timeline.py:350-384, move_vehicles. A route has no road twice (the code
      keeps the deliveries in a dictionary). *)
  Definition move (roads : nat -> events) (batch t : Z) (rs : list nat) : outcome (Z * list (nat * booking)) :=
    match rs with [] => Refused | _ => drive roads batch t rs end.
  (** hybrid_supply_timeline.py:348-397, _get_route_with_additional, for at least one
      vehicle: bookings of roads, time ahead, time back *)
  Definition route_info (roads : nat -> events) (from to : nat) (batch t : Z) : outcome (list (nat * booking) * Z * Z) :=
    bind (move roads batch t (route batch from to)) (fun ahead =>
    bind (move roads batch (fst ahead) (route batch to from)) (fun back =>
    Fine (snd ahead ++ snd back, fst ahead - t, fst back - fst ahead))).

  (** what is remembered of a depot that could deliver *)
  Record found := Found { f_depot : depot; f_leaves : Z; f_arrives : Z; f_returns : Z; f_roads : list (nat * booking) }.
  (** hybrid_supply_timeline.py:207-231, one depot of get_finish_time. No vehicles: the
      [raise] of line 386 without exception. *)
  Definition try_depot (s : supply) (platform : nat) (r : request) (t : Z) (d : depot) : outcome found :=
    match vehicles_needed d r with
    | None => Crashed
    | Some need =>
        let batch := Z.min need (dp_vehicles d) in
        if batch <=? 0 then Crashed
        else bind (route_info (su_roads s) (dp_id d) platform batch t) (fun x =>
             let '(bs, ahead, back) := x in
             match earliest (su_vehs s (dp_id d)) need t (back + ahead) with
             | None => Crashed
             | Some v => Fine (Found d v (v + ahead) (v + back + ahead) bs)
             end)
    end.
  Definition arrival (f : option found) : Z := match f with None => -1 | Some x => f_arrives x end.
  (** hybrid_supply_timeline.py:266-276, the depots at one start time *)
  Fixpoint choose (s : supply) (platform : nat) (r : request) (deadline t : Z) (ds : list depot) (cur : option found) : outcome (option found) :=
    match ds with
    | [] => Fine cur
    | d :: ds' =>
        bind (try_depot s platform r t d) (fun f =>
        choose s platform r deadline t ds'
          (if ((deadline <? arrival cur) && (f_arrives f <? arrival cur)) || (arrival cur <? deadline) then Some f else cur))
    end.
  (** hybrid_supply_timeline.py:262-276, the loop over start times *)
  Fixpoint search (fuel : nat) (s : supply) (platform : nat) (r : request) (deadline t : Z) (ds : list depot) (cur : option found) : outcome (option found) :=
    if arrival cur <? deadline then
      match fuel with
      | O => Crashed
      | S fuel' => bind (choose s platform r deadline t ds cur) (fun c => search fuel' s platform r deadline (t + 1) ds c)
      end
    else Fine cur.
  (** hybrid_supply_timeline.py:159-172: the last event before infinity tells what is left *)
  Definition left_of (l : events) : Z := match last_event (fst (before l TIME_INF)) with Some e => ev_count e | None => 0 end.
  Definition has_material (s : supply) (d : depot) (x : nat * Z) : bool :=
    match su_mats s (dp_id d) (fst x) with Some l => snd x <=? left_of l | None => false end.
  (** hybrid_supply_timeline.py:139-179, _find_best_holders_by_dist *)
  Definition able (s : supply) (platform : nat) (r : request) : outcome (list depot) :=
    match filter (fun d => forallb (has_material s d) r) (holders platform) with
    | [] => Refused
    | ds => Fine ds
    end.
  Definition search_rounds (deadline : Z) : nat := S (S (Z.to_nat deadline)).
  (** hybrid_supply_timeline.py:195-282, _supply_resources without update: the depot found *)
  Definition find_supply (s : supply) (platform : nat) (deadline : Z) (r : request) : outcome found :=
    bind (able s platform r) (fun ds =>
    bind (search (search_rounds deadline) s platform r deadline 0 ds None) (fun c =>
    match c with Some f => Fine f | None => Crashed end)).

  (** A delivery: MaterialDelivery of landscape.py, with the bookings of roads. *)
  Record delivery := Dl { dl_depot : nat; dl_leaves : Z; dl_arrives : Z; dl_mats : request; dl_roads : list (nat * booking) }.
  Fixpoint book_mats (mats : nat -> option events) (t : Z) (r : request) : outcome (nat -> option events) :=
    match r with
    | [] => Fine mats
    | (m, c) :: r' =>
        match mats m with
        | None => Crashed
        | Some l => match book l c t TIME_INF with None => Crashed | Some l' => book_mats (upd mats m (Some l')) t r' end
        end
    end.
  Fixpoint book_roads (roads : nat -> events) (bs : list (nat * booking)) : outcome (nat -> events) :=
    match bs with
    | [] => Fine roads
    | (r, b) :: bs' =>
        match book (roads r) (b_count b) (b_start b) (b_end b) with
        | None => Crashed
        | Some l => book_roads (upd roads r l) bs'
        end
    end.

  (** ** Platforms *)
  Definition available (l : events) (t : Z) : Z := match last_event (fst (upto l t)) with Some e => ev_count e | None => 0 end.
  (** platform_timeline.py:119-136, update_timeline: later events stay as they are *)
  Fixpoint update_platform (plat : nat -> option events) (us : list (nat * Z * Z)) : outcome (nat -> option events) :=
    match us with
    | [] => Fine plat
    | (m, c, t) :: us' =>
        match plat m with
        | None => Crashed
        | Some l => update_platform (upd plat m (Some (add_event l t (available l t - c)))) us'
        end
    end.
  (** platform_timeline.py:53-69: at most one event later than [t] *)
  Fixpoint platform_ready (plat : nat -> option events) (r : request) (t : Z) : outcome bool :=
    match r with
    | [] => Fine true
    | (m, _) :: r' =>
        match plat m with
        | None => Crashed
        | Some l => if Nat.ltb 1 (length (snd (upto l t))) then Fine false else platform_ready plat r' t
        end
    end.
  (** platform_timeline.py:71-90, get_material_for_delivery: fill the storage up *)
  Fixpoint to_deliver (plat : nat -> option events) (platform : nat) (r : request) (t : Z) : outcome request :=
    match r with
    | [] => Fine []
    | (m, c) :: r' =>
        match plat m with
        | None => Crashed
        | Some l => bind (to_deliver plat platform r' t) (fun q =>
                    Fine (if available l t <? c then (m, storage platform m - available l t) :: q else q))
        end
    end.
  (** platform_timeline.py:92-104: the time from which the platform has no more than one
      later event *)
  Fixpoint last_times (plat : nat -> option events) (r : request) (t : Z) : outcome Z :=
    match r with
    | [] => Fine t
    | (m, _) :: r' =>
        match plat m with
        | None => Crashed
        | Some l => last_times plat r' (Z.max (time_at l (length l - 1)) t)
        end
    end.
  Definition platform_time (plat : nat -> option events) (r : request) (t : Z) : outcome Z :=
    bind (platform_ready plat r t) (fun ok => if ok then Fine t else last_times plat r t).

  (** hybrid_supply_timeline.py:242-302 with update *)
  Definition supply_resources (s : supply) (platform : nat) (deadline : Z) (needs r : request) : outcome (delivery * supply) :=
    bind (find_supply s platform deadline r) (fun f =>
    let d := dp_id (f_depot f) in
    bind (update_platform (su_plat s platform)
            (map (fun x => (fst x, (match amount (fst x) needs with Some c => c | None => 0 end) - snd x, f_arrives f)) r)) (fun plat =>
    bind (book_mats (su_mats s d) (f_leaves f) r) (fun mats =>
    (* line 248: the list of selected vehicles is still empty *)
    match book (su_vehs s d) 0 (f_leaves f) (f_returns f) with
    | None => Crashed
    | Some vehs =>
        bind (book_roads (su_roads s) (f_roads f)) (fun roads =>
        Fine (Dl d (f_leaves f) (f_arrives f) r (f_roads f),
              Sup (upd (su_mats s) d mats) (upd (su_vehs s) d vehs) roads (upd (su_plat s) platform plat)))
    end))).
  (** hybrid_supply_timeline.py:181-193, deliver_resources; [needs] are the materials of the
      work, none for a service work. The time when the materials are there, the delivery if
      there is one. platform_timeline.py:106-117, can_provide_resources, is the middle part. *)
  Definition deliver (s : supply) (platform : nat) (deadline : Z) (needs : request) : outcome (option delivery * Z * supply) :=
    match needs with
    | [] => Fine (None, deadline, s)
    | _ =>
        bind (to_deliver (su_plat s platform) platform needs deadline) (fun r =>
        bind (match r with [] => platform_ready (su_plat s platform) needs deadline | _ => Fine false end) (fun ok =>
        if ok then
          bind (update_platform (su_plat s platform) (map (fun x => (fst x, snd x, deadline)) needs)) (fun plat =>
          Fine (None, deadline, Sup (su_mats s) (su_vehs s) (su_roads s) (upd (su_plat s) platform plat)))
        else
          match r with
          | [] => Fine (None, deadline, s)
          | _ => bind (supply_resources s platform deadline needs r) (fun x => Fine (Some (fst x), dl_arrives (fst x), snd x))
          end))
    end.
  (** hybrid_supply_timeline.py:83-102, find_min_material_time *)
  Definition find_min_material_time (s : supply) (platform : nat) (t : Z) (needs : request) : outcome Z :=
    match needs with
    | [] => Fine t
    | _ =>
        bind (platform_time (su_plat s platform) needs t) (fun t1 =>
        bind (to_deliver (su_plat s platform) platform needs t1) (fun r =>
        match r with
        | [] => Fine t1
        | _ => bind (find_supply s platform t1 r) (fun f => Fine (f_arrives f))
        end))
    end.
  (** hybrid_supply_timeline.py:60-81, can_schedule_at_the_moment; the assertion of line 62 *)
  Definition can_schedule (s : supply) (platform : nat) (t : Z) (needs : request) : outcome bool :=
    match needs with
    | [] => Fine true
    | _ =>
        bind (platform_ready (su_plat s platform) needs t) (fun ok =>
        if negb ok then Fine false
        else bind (to_deliver (su_plat s platform) platform needs t) (fun r =>
             match r with
             | [] => Fine true
             | _ => bind (find_supply s platform t r) (fun f => if f_arrives f <? t then Crashed else Fine (f_arrives f =? t))
             end))
    end.

  (** ** Histories *)
  (** A call of deliver_resources: platform of the work, time, materials. *)
  Record call := Call { c_platform : nat; c_deadline : Z; c_needs : request }.
  (** The calls of a history that do not raise change the timelines; a refused call leaves
      them as they are (nothing is booked before the depot is found). *)
  Fixpoint history_of (s : supply) (calls : list call) : outcome (list (call * option delivery * Z) * supply) :=
    match calls with
    | [] => Fine ([], s)
    | c :: cs =>
        match deliver s (c_platform c) (c_deadline c) (c_needs c) with
        | Fine (d, t, s') => bind (history_of s' cs) (fun x => Fine ((c, d, t) :: fst x, snd x))
        | Refused => history_of s cs
        | Crashed => Crashed
        end
    end.
  (** hybrid_supply_timeline.py:39-48, platform_timeline.py:31-39: everything is unused *)
  Definition unused (n : Z) : events := [Ev 0 n].
  Definition start_supply (stock : nat -> nat -> option Z) (vehicles : nat -> Z) (bandwidth : nat -> Z)
                          (material : nat -> nat -> option Z) : supply :=
    Sup (fun h m => option_map unused (stock h m)) (fun h => unused (vehicles h)) (fun r => unused (bandwidth r))
        (fun p m => option_map unused (material p m)).
End Landscape.
