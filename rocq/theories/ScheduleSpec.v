(** Vocabulary for the statements about schedules. *)
From Coq Require Import ZArith List Bool.
From Verif Require Import TimeModel MomentumModel JITModel MomentumSpec GraphModel ScheduleModel TeamProofs.
Import ListNotations.
Local Open Scope Z_scope.

(** The bookings of workers that the works of a schedule amount to. *)
Definition work_bookings (x : nat * swork) : history :=
  map (fun w => ((w_contractor w, w_kind w), Bk (sw_start (snd x)) (sw_finish (snd x)) (w_count w)))
      (sw_team (snd x)).
Definition schedule_bookings (sd : sched) : history := concat (map work_bookings sd).

(** [a] comes before [b] in a list. *)
Definition comes_before {A} (l : list A) (a b : A) : Prop :=
  exists l1 l2 l3, l = l1 ++ a :: l2 ++ b :: l3.

(** The inseparable chains of the listed head nodes. *)
Fixpoint chains_of (g : graph) (heads : list nat) : option (list (list nat)) :=
  match heads with
  | [] => Some []
  | n :: r =>
      match chain_of g n, chains_of g r with
      | Some c, Some cs => Some (c :: cs)
      | _, _ => None
      end
  end.

(** Contractors are well formed when their ids and the kinds of each of them are
    distinct and counts are not negative. *)
Definition contractors_ok (cs : list contractor) : Prop :=
  NoDup (map ct_id cs) /\
  forall c, In c cs -> NoDup (map fst (ct_workers c)) /\ forall k n, In (k, n) (ct_workers c) -> 0 <= n.

(** Requirements of a work: distinct kinds, 0 <= min <= max. *)
Definition reqs_ok (rs : list req) : Prop :=
  NoDup (map r_kind rs) /\ Forall (fun r => 0 <= r_min r <= r_max r) rs.

Definition estimator_ok (est : nat -> list worker -> Z) : Prop :=
  forall n team, 0 <= est n team <= TIME_INF.

(** A team a scheduler may choose for requirements [rs] at contractor [ct]: workers of
    that contractor, one per requirement, their number between the required minimum and
    maximum or named by the specification. *)
Definition team_for (ct : contractor) (s : work_spec) (rs : list req) (team : list worker) : Prop :=
  Forall2 (fun r w => w_contractor w = ct_id ct /\ w_kind w = r_kind r /\ 0 <= w_count w /\
             (r_min r <= w_count w <= r_max r \/ In (r_kind r, w_count w) (sp_workers s))) rs team.
(** Every estimate for a work of a chain with a team for the head of the chain is at
    most [D]. *)
Definition estimates_bounded (g : graph) (est : nat -> list worker -> Z) (cs : list contractor)
           (spec : nat -> work_spec) (D : Z) : Prop :=
  forall n c m ct team, chain_of g n = Some c -> In m c -> In ct cs ->
    team_for ct (spec n) (u_reqs (g_unit g n)) team -> est m team <= D.

Definition spec_ok (s : work_spec) : Prop :=
  (forall k n, In (k, n) (sp_workers s) -> 0 <= n) /\
  match sp_time s with Some t => 0 <= t <= TIME_INF | None => True end.

(** Two works belong to one of the chains. *)
Definition same_chain (chains : list (list nat)) (u v : nat) : Prop :=
  exists c, In c chains /\ In u c /\ In v c.

(** The chain of [v] has no assigned execution time, or [v] is its first work. *)
Definition not_pinned (spec : nat -> work_spec) (chains : list (list nat)) (v : nat) : Prop :=
  exists hd r, In (hd :: r) chains /\ In v (hd :: r) /\ (sp_time (spec hd) = None \/ v = hd).

(** The work is done by a contractor of the list that the specification of the head
    [hd] of its chain allows, with a team of that contractor for the requirements of
    [hd]. *)
Definition staffed (g : graph) (contractors : list contractor) (spec : nat -> work_spec)
           (hd : nat) (w : swork) : Prop :=
  exists ct, In ct contractors /\ sw_contractor w = ct_id ct /\
    (sp_contractors (spec hd) = [] \/ In (ct_id ct) (sp_contractors (spec hd))) /\
    Forall2 (fun r k => w_contractor k = ct_id ct /\ w_kind k = r_kind r /\ 0 <= w_count k /\
                        exists n, In (r_kind r, n) (ct_workers ct) /\
                        (sp_workers (spec hd) = [] -> r_min r <= w_count k <= r_max r /\ w_count k <= n))
            (u_reqs (g_unit g hd)) (sw_team w).

(** The worker counts named in a specification are available at every allowed
    contractor; if there are as many of them as requirements, they name the required
    kinds. *)
Definition spec_fits (cs : list contractor) (reqs : list req) (s : work_spec) : Prop :=
  (forall ct k m n, In ct cs -> (sp_contractors s = [] \/ In (ct_id ct) (sp_contractors s)) ->
     In (k, m) (sp_workers s) -> In (k, n) (ct_workers ct) -> m <= n) /\
  (length (sp_workers s) = length reqs ->
     forall r, In r reqs -> In (r_kind r) (map fst (sp_workers s))).

(** The contractor has, for every requirement, the minimal number of workers. *)
Definition able (ct : contractor) (reqs : list req) : Prop :=
  forall r, In r reqs -> exists n, In (r_kind r, n) (ct_workers ct) /\ r_min r <= n.

(** In a schedule under construction (newest entry first) every work starts not before
    the finish plus lag of each predecessor that was already scheduled when it was
    placed. *)
Definition starts_after_predecessors (g : graph) (sd : sched) : Prop :=
  forall later v w earlier, sd = later ++ (v, w) :: earlier ->
    forall e wu, In e (g_edges g) -> e_to e = v -> sd_get earlier (e_from e) = Some wu ->
      tadd (sw_finish wu) (e_lag e) <= sw_start w.

(** A call of the schedule method of a timeline. *)
Record schedule_call := SCall { sc_node : nat; sc_team : list worker; sc_contractor : nat;
                                sc_spec : work_spec; sc_start : option Z; sc_parent_time : Z }.
(** A sequence of calls on the release-time timeline. *)
Fixpoint jit_calls (g : graph) (est : nat -> list worker -> Z) (calls : list schedule_call)
         (sd : sched) (s : jtimeline) : option (sched * jtimeline) :=
  match calls with
  | [] => Some (sd, s)
  | c :: r =>
      match jit_schedule g est sd s (sc_node c) (sc_team c) (sc_contractor c) (sc_spec c)
                         (sc_start c) (sc_parent_time c) with
      | None => None
      | Some (sd', s') => jit_calls g est r sd' s'
      end
  end.

(** No work has two different inseparable predecessors. *)
Definition single_inseparable_parent (g : graph) : Prop :=
  forall e e', In e (g_edges g) -> In e' (g_edges g) -> e_type e = IFS -> e_type e' = IFS ->
    e_to e = e_to e' -> e_from e = e_from e'.
Definition inseparable_lags_ok (g : graph) : Prop :=
  forall e, In e (g_edges g) -> e_type e = IFS -> 0 <= e_lag e.
