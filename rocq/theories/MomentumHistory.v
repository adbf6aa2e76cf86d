(** Running a sequence of bookings on the Momentum timeline, in the vocabulary of
    [MomentumSpec]. *)
From Coq Require Import ZArith List Bool.
From Verif Require Import TimeModel MomentumModel MomentumSpec.
Import ListNotations.
Local Open Scope Z_scope.

(** A Worker object of the team for each (agent, count). *)
Definition to_workers (team : list (agent * Z)) : list worker :=
  map (fun x => Wk (fst (fst x)) (snd (fst x)) (snd x)) team.

(** A sequence of update_timeline calls (momentum_timeline.py:340-389); [None] as soon
    as one of them fails an assertion. *)
Fixpoint run_requests (rs : list request) (s : mstate) : option mstate :=
  match rs with
  | [] => Some s
  | r :: rest =>
      match update_timeline (rq_finish r) (rq_duration r) (to_workers (rq_team r)) s with
      | None => None
      | Some s' => run_requests rest s'
      end
  end.

(** The timeline after construction and a sequence of accepted bookings. *)
Definition timeline_after (p : pool) (rs : list request) : option mstate :=
  run_requests rs (momentum_init p).

(** The number of free workers recorded in an event list for moment [t]: the count of
    the last event not later than [t]. *)
Fixpoint free_at (st : list event) (t : Z) : option Z :=
  match st with
  | [] => None
  | e :: r =>
      match free_at r t with
      | Some n => Some n
      | None => if ev_time e <=? t then Some (ev_cnt e) else None
      end
  end.

(** Hypotheses on the inputs. *)
Definition pool_ok (p : pool) : Prop := forall a n, In (a, n) p -> 0 <= n.
(** Teams name each contractor-kind pair once and have non-negative counts. *)
Definition team_ok (team : list (agent * Z)) : Prop :=
  NoDup (map fst team) /\ forall a n, In (a, n) team -> 0 <= n.
Definition request_ok (r : request) : Prop :=
  0 <= rq_duration r <= rq_finish r /\ rq_finish r <= TIME_INF /\ team_ok (rq_team r).
(** A history of well-formed requests, at most TIME_INF of them. *)
Definition requests_ok (rs : list request) : Prop :=
  Forall request_ok rs /\ Z.of_nat (length rs) <= TIME_INF.

(** A team of one contractor, given by kinds and counts. *)
Definition team_of_contractor (c : nat) (team : list (nat * Z)) : list (agent * Z) :=
  map (fun x => ((c, fst x), snd x)) team.
