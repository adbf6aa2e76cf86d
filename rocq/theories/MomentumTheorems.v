(** Properties C02 - C07: the Momentum timeline. Vocabulary: [MomentumSpec] (bookings,
    load, fits) and [MomentumHistory] (sequences of calls, hypotheses on inputs). *)
From Coq Require Import ZArith List Bool Lia.
From Verif Require Import TimeModel MomentumModel MomentumSpec MomentumHistory MomentumSlotProofs MomentumTeamProofs.
Import ListNotations.
Local Open Scope Z_scope.

(** A concrete history used by the examples: two contractors, two kinds; overlapping
    and touching bookings on the same agent. *)
Definition ex_pool : pool := [((0, 0)%nat, 5); ((0, 1)%nat, 2); ((1, 0)%nat, 3)].
Definition ex_requests : list request :=
  [ Rq 10 10 [((0, 0)%nat, 3); ((0, 1)%nat, 1)];
    Rq 15 10 [((0, 0)%nat, 2)];
    Rq 20 10 [((0, 0)%nat, 3); ((0, 1)%nat, 2)];
    Rq 7 0 [((1, 0)%nat, 9)];
    Rq 30 15 [((0, 0)%nat, 2)] ].

Example ex_pool_ok : pool_ok ex_pool.
Proof. intros a n H. repeat (destruct H as [[= <- <-]|H]; [lia|]). destruct H. Qed.
Example ex_requests_ok : requests_ok ex_requests.
Proof.
  split; [|vm_compute; discriminate].
  repeat apply Forall_cons; try apply Forall_nil;
    (split; [simpl; lia|split; [vm_compute; discriminate|split]]);
    try (simpl; repeat apply NoDup_cons; try apply NoDup_nil; simpl; intuition congruence);
    intros a n H; repeat (destruct H as [[= <- <-]|H]; [lia|]); destruct H.
Qed.
Example ex_accepted : exists s, timeline_after ex_pool ex_requests = Some s.
Proof. eexists. vm_compute. reflexivity. Qed.

(** C02 *)
Theorem momentum_never_overbooks :
  forall p rs s a cap t,
    pool_ok p -> requests_ok rs ->
    timeline_after p rs = Some s ->
    capacity p a = Some cap -> 0 <= t ->
    busy (all_booked rs) a t <= cap.
Proof. exact busy_le_all. Qed.
Print Assumptions momentum_never_overbooks.
Example momentum_never_overbooks_tight : busy (all_booked ex_requests) (0, 0)%nat 12 = 5.
Proof. reflexivity. Qed.

(** C02: a booking is rejected (assertion error) only when it would overbook. *)
Theorem momentum_accepts_iff_fits :
  forall p rs s r,
    pool_ok p -> requests_ok rs -> timeline_after p rs = Some s ->
    request_ok r -> Z.of_nat (length rs) < TIME_INF -> rq_duration r > 0 ->
    ((exists s', update_timeline (rq_finish r) (rq_duration r) (to_workers (rq_team r)) s = Some s')
     <-> team_fits p (all_booked rs) (rq_team r) (rq_finish r - rq_duration r) (rq_duration r)).
Proof. exact booking_accepted_iff. Qed.
Print Assumptions momentum_accepts_iff_fits.
Example momentum_accepts_iff_fits_rejects :
  timeline_after ex_pool (ex_requests ++ [Rq 13 2 [((0, 0)%nat, 1)]]) = None.
Proof. vm_compute. reflexivity. Qed.

(** C03 *)
Theorem momentum_reports_exactly_the_free_workers :
  forall p rs s a cap,
    pool_ok p -> requests_ok rs -> timeline_after p rs = Some s -> capacity p a = Some cap ->
    exists st, tl_get (m_tl s) a = Some st /\
      forall t, 0 <= t -> free_at st t = Some (cap - busy (all_booked rs) a t).
Proof.
  exact (fun p rs s a cap Hp Hr Hs Hc =>
    minv_free p _ s a cap (timeline_after_inv p rs s Hp (proj1 Hr) (proj2 Hr) Hs) Hc).
Qed.
Print Assumptions momentum_reports_exactly_the_free_workers.
Example momentum_reports_ex :
  match timeline_after ex_pool ex_requests with
  | Some s => match tl_get (m_tl s) (0, 0)%nat with
              | Some st => map (free_at st) [0; 5; 10; 12; 15; 20; 29; 30]
              | None => [] end
  | None => [] end
  = [Some 2; Some 0; Some 0; Some 0; Some 0; Some 3; Some 3; Some 5].
Proof. vm_compute. reflexivity. Qed.

(** C03: the question "can this team be scheduled at this moment" is answered exactly. *)
Theorem momentum_can_schedule_exact :
  forall p rs s team st d,
    pool_ok p -> requests_ok rs -> timeline_after p rs = Some s ->
    0 <= st -> 0 < d -> st + d <= TIME_INF ->
    (forall a n, In (a, n) team -> capacity p a <> None) ->
    exists b, can_schedule_at_the_moment false (to_workers team) st d (m_tl s) = Some b /\
      (b = true <-> team_fits p (all_booked rs) team st d).
Proof. exact can_schedule_exact. Qed.
Print Assumptions momentum_can_schedule_exact.
Example momentum_can_schedule_ex :
  match timeline_after ex_pool ex_requests with
  | Some s => (can_schedule_at_the_moment false (to_workers [((0, 0)%nat, 3); ((0, 1)%nat, 2)]) 20 10 (m_tl s),
               can_schedule_at_the_moment false (to_workers [((0, 0)%nat, 3); ((0, 1)%nat, 2)]) 19 10 (m_tl s))
  | None => (None, None) end = (Some true, Some false).
Proof. vm_compute. reflexivity. Qed.

(** Finding: for an independent work the same question raises KeyError as soon as the
    team is not empty. *)
Theorem momentum_can_schedule_independent_refuted :
  exists p team st d, pool_ok p /\ team <> [] /\ team_fits p [] team st d /\
    can_schedule_at_the_moment true (to_workers team) st d (m_tl (momentum_init p)) = None.
Proof.
  exists [((0, 0)%nat, 5)], [((0, 0)%nat, 2)], 0, 1. repeat split.
  - intros a n [[= <- <-]|[]]. lia.
  - discriminate.
  - intros a n [[= <- <-]|[]]. exists 5. split; [reflexivity|]. intros t _. simpl. lia.
Qed.
Print Assumptions momentum_can_schedule_independent_refuted.

(** C04, C05: the slot search (work not marked independent) answers for every parent
    time, duration and team size within the capacity; the answer is free for the whole
    duration and no earlier start is. *)
Theorem momentum_slot_free_and_earliest :
  forall p rs s a cap pt d w,
    pool_ok p -> requests_ok rs -> timeline_after p rs = Some s ->
    capacity p a = Some cap -> 0 <= pt -> 0 <= d -> w <= cap ->
    exists st r, tl_get (m_tl s) a = Some st /\
      find_earliest_time_slot st pt d w false = Some r /\
      pt <= r /\ fits cap (bookings_of (all_booked rs) a) r d w /\
      (forall s', pt <= s' < r -> ~ fits cap (bookings_of (all_booked rs) a) s' d w).
Proof. exact slot_free_earliest. Qed.
Print Assumptions momentum_slot_free_and_earliest.
Example momentum_slot_ex :
  match timeline_after ex_pool ex_requests with
  | Some s => match tl_get (m_tl s) (0, 0)%nat with
              | Some st => map (fun w => find_earliest_time_slot st 0 4 w false) [1; 2; 3; 4; 5]
              | None => [] end
  | None => [] end
  = [Some 0; Some 0; Some 20; Some 30; Some 30].
Proof. vm_compute. reflexivity. Qed.

(** C04 for a work marked independent: the answer is also after every booking of that
    agent. *)
Theorem momentum_slot_independent :
  forall p rs s a cap pt d w,
    pool_ok p -> requests_ok rs -> timeline_after p rs = Some s ->
    capacity p a = Some cap -> 0 <= pt -> 0 < d -> w <= cap ->
    exists st r, tl_get (m_tl s) a = Some st /\
      find_earliest_time_slot st pt d w true = Some r /\
      pt <= r /\ fits cap (bookings_of (all_booked rs) a) r d w /\
      (forall b, In b (bookings_of (all_booked rs) a) -> b_end b <= r).
Proof. exact slot_independent. Qed.
Print Assumptions momentum_slot_independent.

(** C06: the search over all kinds of a team. [chain] lists the works of the inseparable
    chain as (is it a service unit, kinds required); all require the team's kinds. *)
Theorem momentum_team_start_earliest :
  forall p rs s c team d chain pt,
    pool_ok p -> requests_ok rs -> timeline_after p rs = Some s ->
    NoDup (map fst team) -> 0 <= d -> 0 <= pt ->
    (forall k n, In (k, n) team -> exists cap, capacity p (c, k) = Some cap /\ n <= cap) ->
    chain <> [] -> (forall x, In x chain -> snd x = map fst team) -> forallb fst chain = false ->
    exists r,
      find_min_start_time (m_tl s) c chain false pt d (to_workers (team_of_contractor c team)) = Some r /\
      pt <= r /\ team_fits p (all_booked rs) (team_of_contractor c team) r d /\
      (forall t, pt <= t < r -> ~ team_fits p (all_booked rs) (team_of_contractor c team) t d).
Proof. exact team_start_earliest. Qed.
Print Assumptions momentum_team_start_earliest.
Example momentum_team_start_ex :
  match timeline_after ex_pool ex_requests with
  | Some s => find_min_start_time (m_tl s) 0 [(false, [1; 0]%nat)] false 0 5
                (to_workers (team_of_contractor 0 [(1%nat, 2); (0%nat, 3)]))
  | None => None end = Some 20.
Proof. vm_compute. reflexivity. Qed.

(** C07: after a search for duration [d], both the internal validation for [d] and the
    booking for any duration up to [d] go through. *)
Theorem momentum_booking_found_slot_succeeds :
  forall p rs s c team d d' chain pt r,
    pool_ok p -> requests_ok rs -> Z.of_nat (length rs) < TIME_INF -> timeline_after p rs = Some s ->
    NoDup (map fst team) -> (forall k n, In (k, n) team -> 0 <= n) -> 0 <= d' <= d -> 0 <= pt ->
    (forall k n, In (k, n) team -> exists cap, capacity p (c, k) = Some cap /\ n <= cap) ->
    chain <> [] -> (forall x, In x chain -> snd x = map fst team) -> forallb fst chain = false ->
    find_min_start_time (m_tl s) c chain false pt d (to_workers (team_of_contractor c team)) = Some r ->
    r + d <= TIME_INF ->
    validate (tadd r d) d (to_workers (team_of_contractor c team)) (m_tl s) = true /\
    exists s', update_timeline (r + d') d' (to_workers (team_of_contractor c team)) s = Some s'.
Proof. exact book_found. Qed.
Print Assumptions momentum_booking_found_slot_succeeds.
Example momentum_booking_found_ex :
  exists s', timeline_after ex_pool (ex_requests ++ [Rq 25 5 (team_of_contractor 0 [(1%nat, 2); (0%nat, 3)])]) = Some s'.
Proof. eexists. vm_compute. reflexivity. Qed.

(** Finding: when the team is larger than the contractor's workforce the search answers
    TIME_INF, but the internal validation that follows fails its assertion. *)
Theorem momentum_too_large_team_crashes :
  exists p c team chain,
    pool_ok p /\
    find_min_start_time (m_tl (momentum_init p)) c chain false 0 1 (to_workers (team_of_contractor c team)) = Some TIME_INF /\
    validate (tadd TIME_INF 1) 1 (to_workers (team_of_contractor c team)) (m_tl (momentum_init p)) = false.
Proof.
  exists [((0, 0)%nat, 2)], 0%nat, [(0%nat, 3)], [(false, [0%nat])].
  split; [intros a n [[= <- <-]|[]]; lia|]. vm_compute. split; reflexivity.
Qed.
Print Assumptions momentum_too_large_team_crashes.
