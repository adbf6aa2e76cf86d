(** Sequences of calls on the release-time timeline and the vocabulary of its
    statements. *)
From Coq Require Import ZArith List Bool.
From Verif Require Import TimeModel MomentumModel MomentumSpec MomentumHistory JITModel.
Import ListNotations.
Local Open Scope Z_scope.

(** A work occupying a team over [jr_start, jr_finish). [jr_bound] is the lower bound
    given to the search that preceded the booking. *)
Record jrequest := JR { jr_bound : Z; jr_start : Z; jr_finish : Z;
                        jr_independent : bool; jr_team : list (agent * Z) }.

Definition jbooked (r : jrequest) : history :=
  map (fun w => (fst w, Bk (jr_start r) (jr_finish r) (snd w))) (jr_team r).
Definition all_jbooked (rs : list jrequest) : history := concat (map jbooked rs).

(** Any sequence of update_timeline calls. *)
Fixpoint run_updates (rs : list jrequest) (tl : jtimeline) : option jtimeline :=
  match rs with
  | [] => Some tl
  | r :: rest =>
      match jit_update (jr_independent r) (jr_finish r) (to_workers (jr_team r)) tl with
      | None => None
      | Some tl' => run_updates rest tl'
      end
  end.

(** A sequence of works, each started not before the moment answered by the timeline
    for its team; [None] if some work is started too early. *)
Fixpoint run_placed (rs : list jrequest) (tl : jtimeline) : option jtimeline :=
  match rs with
  | [] => Some tl
  | r :: rest =>
      match find_agents_time (jr_independent r) (to_workers (jr_team r)) tl (jr_bound r) with
      | None => None
      | Some answer =>
          if answer <=? jr_start r then
            match jit_update (jr_independent r) (jr_finish r) (to_workers (jr_team r)) tl with
            | None => None
            | Some tl' => run_placed rest tl'
            end
          else None
      end
  end.

(** Every member names a known agent and asks for no more than its workforce. *)
Definition team_within (p : pool) (team : list (agent * Z)) : Prop :=
  NoDup (map fst team) /\
  forall a n, In (a, n) team -> exists cap, capacity p a = Some cap /\ 0 <= n <= cap.

(** Workers accounted for in a stack, and those released not later than [t]. *)
Fixpoint accounted (st : stack) : Z :=
  match st with [] => 0 | (_, c) :: r => c + accounted r end.
Fixpoint released (st : stack) (t : Z) : Z :=
  match st with
  | [] => 0
  | (rt, c) :: r => (if rt <=? t then c else 0) + released r t
  end.
(** Release times in ascending order from the top of the stack. *)
Fixpoint ordered (st : stack) : Prop :=
  match st with
  | [] => True
  | x :: r => (forall y, In y r -> fst x <= fst y) /\ ordered r
  end.
