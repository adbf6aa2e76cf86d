(** Vocabulary for the statements about worker timelines. Nothing here refers to the
    data structures of the timelines. *)
From Coq Require Import ZArith List Bool.
Import ListNotations.
Local Open Scope Z_scope.

(** [count] workers are busy from [b_start] (included) to [b_end] (excluded). *)
Record booking := Bk { b_start : Z; b_end : Z; b_count : Z }.

Definition active (b : booking) (t : Z) : bool := (b_start b <=? t) && (t <? b_end b).

(** Number of workers busy at moment [t]. *)
Fixpoint load (bs : list booking) (t : Z) : Z :=
  match bs with
  | [] => 0
  | b :: r => (if active b t then b_count b else 0) + load r t
  end.

(** [n] more workers fit over the whole interval [s, s + d). *)
Definition fits (cap : Z) (bs : list booking) (s d n : Z) : Prop :=
  forall t, s <= t < s + d -> load bs t + n <= cap.

(** Bookings of several agents; an agent is a contractor and a worker kind. *)
Definition agent := (nat * nat)%type.
Definition history := list (agent * booking).

Fixpoint bookings_of (h : history) (a : agent) : list booking :=
  match h with
  | [] => []
  | ((c, k), b) :: r =>
      if Nat.eqb c (fst a) && Nat.eqb k (snd a) then b :: bookings_of r a else bookings_of r a
  end.

(** Workers of a contractor and kind that are busy at moment [t]. *)
Definition busy (h : history) (a : agent) (t : Z) : Z := load (bookings_of h a) t.

(** The number of workers of each agent. *)
Definition pool := list (agent * Z).
Fixpoint capacity (p : pool) (a : agent) : option Z :=
  match p with
  | [] => None
  | ((c, k), n) :: r => if Nat.eqb c (fst a) && Nat.eqb k (snd a) then Some n else capacity r a
  end.

(** A request to occupy a team over [finish - duration, finish). *)
Record request := Rq { rq_finish : Z; rq_duration : Z; rq_team : list (agent * Z) }.

(** What a request books; a request of zero duration books nothing. *)
Definition booked (r : request) : history :=
  if rq_duration r =? 0 then []
  else map (fun w => (fst w, Bk (rq_finish r - rq_duration r) (rq_finish r) (snd w))) (rq_team r).
Definition all_booked (rs : list request) : history := concat (map booked rs).

(** Every member of the team fits over [s, s + d). *)
Definition team_fits (p : pool) (h : history) (team : list (agent * Z)) (s d : Z) : Prop :=
  forall a n, In (a, n) team -> exists cap, capacity p a = Some cap /\ fits cap (bookings_of h a) s d n.
