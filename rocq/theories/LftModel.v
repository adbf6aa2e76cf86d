(** Model of sampo/scheduler/lft/base.py: the LFT scheduler and its randomized version. The
    timeline is fresh; works have no materials and zones; the landscape is empty. *)
From Coq Require Import ZArith QArith List Bool Arith.
From Verif Require Import TimeModel MomentumModel JITModel GraphModel ScheduleModel TopoModel HeadModel PriorityModel SgsModel.
Import ListNotations.
Local Open Scope Z_scope.
Local Open Scope bool_scope.

(** IncorrectAmountOfWorker, NoSufficientContractorError, CircularDependencyError (of
    toposort), any other exception. *)
Inductive lft_result (A : Type) :=
  | LftDone (x : A) | WrongSpecAmount | NoSufficient | LftCircular | LftError.
Arguments LftDone {A} x.
Arguments WrongSpecAmount {A}.
Arguments NoSufficient {A}.
Arguments LftCircular {A}.
Arguments LftError {A}.

(** lft/base.py:33, assigned_workers.get(kind, -1), and 35, in_spec_mask *)
Definition spec_amount (sp : work_spec) (k : nat) : Z :=
  match assoc_get (sp_workers sp) k with Some n => n | None => -1 end.
Definition in_spec (sp : work_spec) (r : req) : bool := negb (spec_amount sp (r_kind r) =? -1).
(** lft/base.py:50-53, the entry of contractors_amounts. The identifiers of the contractors
    are distinct, so that the pool has the workers of each of them. *)
Definition contractor_amount (c : contractor) (k : nat) : Z :=
  match assoc_get (ct_workers c) k with Some n => n | None => -1 end.
(** lft/base.py:55-60, the entry of contractors_mask *)
Definition accepts (sp : work_spec) (reqs : list req) (c : contractor) : bool :=
  forallb (fun r => r_min r <=? contractor_amount c (r_kind r)) reqs &&
  forallb (fun r => spec_amount sp (r_kind r) <=? contractor_amount c (r_kind r)) (filter (in_spec sp) reqs) &&
  contractor_enabled sp (ct_id c).
(** lft/base.py:69-82, the row of workers_amounts *)
Definition worker_amounts (sp : work_spec) (reqs : list req) (c : contractor) : list Z :=
  map (fun r => if in_spec sp r then spec_amount sp (r_kind r)
                else Z.min (contractor_amount c (r_kind r)) (r_max r)) reqs.
(** lft/base.py:23-84, get_contractors_and_workers_amounts_for_work: the accepted
    contractors with their amounts. Without contractors the array of amounts has one
    dimension, and [all(axis=1)] raises. *)
Definition contractors_for (sp : work_spec) (reqs : list req) (cs : list contractor)
  : lft_result (list (contractor * list Z)) :=
  if existsb (fun r => spec_amount sp (r_kind r) <? r_min r) (filter (in_spec sp) reqs) then WrongSpecAmount
  else if existsb (fun r => r_max r <? spec_amount sp (r_kind r)) (filter (in_spec sp) reqs) then WrongSpecAmount
  else match cs with
       | [] => LftError
       | _ => match filter (accepts sp reqs) cs with
              | [] => NoSufficient
              | l => LftDone (map (fun c => (c, worker_amounts sp reqs c)) l)
              end
       end.

(** lft/base.py:204-227, the scores. Rationals instead of binary fractions. *)
Definition zsum_list (l : list Z) : Z := fold_right Z.add 0 l.
Definition share (x total : Z) : Q := (inject_Z x / inject_Z total)%Q.
Definition scores (durations counts : list Z) (total : Z) : list Q :=
  map (fun dc => (2 - (share (fst dc) (zsum_list durations) + share (snd dc) total))%Q) (combine durations counts).
(** lft/base.py:251-252, np.argmax: the first of the largest *)
Fixpoint argmax_from (l : list Q) (i best : nat) (v : Q) : nat :=
  match l with
  | [] => best
  | x :: r => if Qle_bool x v then argmax_from r (S i) best v else argmax_from r (S i) i x
  end.
Definition argmax (l : list Q) : nat :=
  match l with [] => O | x :: r => argmax_from r 1 0 x end.

Fixpoint increment (i : nat) (l : list Z) {struct l} : list Z :=
  match l, i with
  | [], _ => []
  | x :: r, O => x + 1 :: r
  | x :: r, S i' => x :: increment i' r
  end.
(** numpy indexing with a mask *)
Definition masked {A} (mask : list bool) (l : list A) : list A :=
  map snd (filter fst (combine mask l)).

Section Lft.
  Variable g : graph.
  Variable est : nat -> list worker -> Z.
  (** the contractor identifier of the workers that lft/time_computaion.py:12-13 makes *)
  Variable anonymous : nat.
  Variable cs : list contractor.
  Variable spec : nat -> work_spec.
  Variable apt : Z.

  (** lft/time_computaion.py:9-17, get_chain_duration *)
  Definition chain_duration (n : nat) (amounts : list Z) : option Z :=
    match cascade_time g est n (map (fun ra => Wk anonymous (r_kind (fst ra)) (snd ra)) (combine (reqs_of g n) amounts)) with
    | Some t => Some (t + 1)
    | None => None
    end.
  (** lft/base.py:242-243. [None] is KeyError. *)
  Definition lft_team (c : contractor) (reqs : list req) (amounts : list Z) : option (list worker) :=
    map_opt (fun ra => match assoc_get (ct_workers c) (r_kind (fst ra)) with
                       | Some _ => Some (Wk (ct_id c) (r_kind (fst ra)) (snd ra))
                       | None => None end) (combine reqs amounts).

  (** The contractor and the team of a head node, and its duration. *)
  Record assignment := Asg { a_node : nat; a_contractor : nat; a_team : list worker; a_duration : Z }.
  (** [choose k scores] is _get_contractor_index for the k-th work. *)
  Variable choose : nat -> list Q -> nat.
  (** lft/base.py:208-248, one head node; [counts] is contractors_assignments_count. The
      counter that grows is the one at the position among the accepted contractors. *)
  Definition assign_work (k n : nat) (counts : list Z) : lft_result (assignment * list Z) :=
    match contractors_for (spec n) (reqs_of g n) cs with
    | LftDone accepted =>
        match map_opt (fun ca => chain_duration n (snd ca)) accepted with
        | None => LftError
        | Some durations =>
            let i := choose k (scores durations (masked (map (accepts (spec n) (reqs_of g n)) cs) counts) (zsum_list counts)) in
            match nth_error accepted i, nth_error durations i with
            | Some (c, amounts), Some d =>
                match lft_team c (reqs_of g n) amounts with
                | Some team => LftDone (Asg n (ct_id c) team d, increment i counts)
                | None => LftError
                end
            | _, _ => LftError
            end
        end
    | WrongSpecAmount => WrongSpecAmount
    | NoSufficient => NoSufficient
    | LftCircular => LftCircular
    | LftError => LftError
    end.
  (** lft/base.py:197-249, _contractor_workers_assignment *)
  Fixpoint assign_loop (k : nat) (nodes : list nat) (counts : list Z) : lft_result (list assignment) :=
    match nodes with
    | [] => LftDone []
    | n :: r =>
        match assign_work k n counts with
        | LftDone (a, counts') =>
            match assign_loop (S k) r counts' with
            | LftDone l => LftDone (a :: l)
            | e => e
            end
        | WrongSpecAmount => WrongSpecAmount
        | NoSufficient => NoSufficient
        | LftCircular => LftCircular
        | LftError => LftError
        end
    end.
  Definition assign_all (nodes : list nat) : lft_result (list assignment) :=
    assign_loop 0 nodes (map (fun _ => 1) cs).

  (** the dictionaries _node_id2workers and node_id2duration *)
  Definition assigned_to (l : list assignment) (n : nat) : option assignment :=
    find (fun a => Nat.eqb (a_node a) n) l.
  Definition duration_of (l : list assignment) (n : nat) : Z :=
    match assigned_to l n with Some a => a_duration a | None => 0 end.

  (** lft/base.py:144-195, build_scheduler. Without zones finish_statuses gives 0. *)
  Section Build.
    Variable T : Type.
    Variable find_time : sched -> T -> nat -> list worker -> bool -> option Z.
    Variable place : sched -> T -> nat -> list worker -> nat -> work_spec -> Z -> option (sched * T).
    Variable asg : list assignment.
    Definition lft_step (is_first is_last : bool) (n : nat) (sd : sched) (s : T) : option (sched * T) :=
      match assigned_to asg n with
      | None => None
      | Some a =>
          match find_time sd s n (a_team a) (sp_independent (spec n)) with
          | None => None
          | Some st =>
              let st1 := if is_first then apt else st in
              let st2 := if is_last then tmax st1 0 else st1 in
              place sd s n (a_team a) (a_contractor a) (spec n) st2
          end
      end.
    Fixpoint lft_loop_build (is_first : bool) (nodes : list nat) (sd : sched) (s : T) : option (sched * T) :=
      match nodes with
      | [] => Some (sd, s)
      | n :: r =>
          match lft_step is_first (match r with [] => true | _ => false end) n sd s with
          | None => None
          | Some (sd', s') => lft_loop_build false r sd' s'
          end
      end.
  End Build.
  (** with the interval timeline (the default) and with the release-time timeline *)
  Definition lft_momentum (asg : list assignment) (nodes : list nat) : option (sched * mstate) :=
    lft_loop_build mstate
      (fun sd s n team ind => match momentum_find g est sd s n team ind None apt with
                              | Some (st, _, _) => Some st | None => None end)
      (fun sd s n team c sp st => momentum_schedule g est sd s n team c sp (Some st) apt)
      asg true nodes [] (momentum_init (pool_of cs)).
  Definition lft_jit (asg : list assignment) (nodes : list nat) : option (sched * jtimeline) :=
    lft_loop_build jtimeline
      (fun sd s n team ind => match jit_find g est sd s n team ind apt with
                              | Some (st, _) => Some st | None => None end)
      (fun sd s n team c sp st => jit_schedule g est sd s n team c sp (Some st) apt)
      asg true nodes [] (jit_init (pool_of cs)).

  (** lft/base.py:103-142, schedule_with_cache up to the construction of the Schedule *)
  Definition lft_schedule {T} (wg : list nat)
             (prioritize : list nat -> (nat -> list nat) -> (nat -> list nat) -> (nat -> Z) -> option (list nat))
             (build : list assignment -> list nat -> option (sched * T)) : lft_result (sched * T) :=
    match head_nodes g wg with
    | HeadCycle => LftCircular
    | HeadCrash => LftError
    | Heads order parent_ids child_ids =>
        match assign_all order with
        | LftDone asg =>
            match prioritize order (ids_of parent_ids) (ids_of child_ids) (duration_of asg) with
            | None => LftError
            | Some l => match build asg l with Some r => LftDone r | None => LftError end
            end
        | WrongSpecAmount => WrongSpecAmount
        | NoSufficient => NoSufficient
        | LftCircular => LftCircular
        | LftError => LftError
        end
    end.
End Lft.

(** lft/base.py:87-101, LFTScheduler *)
Definition lft_scheduler g est anonymous cs spec apt wg prio : lft_result (sched * mstate) :=
  lft_schedule g est anonymous cs spec (fun _ => argmax) wg
    (fun order _ child_ids dur => lft_order prio child_ids dur order) (lft_momentum g est cs spec apt).
(** lft/base.py:255-267, RandomizedLFTScheduler: [choose] and [pick] are the random
    generator. With one contractor the index is 0. *)
Definition randomized_lft_scheduler g est anonymous cs spec apt wg prio (choose : nat -> list Q -> nat) pick : lft_result (sched * mstate) :=
  lft_schedule g est anonymous cs spec (fun k l => if Nat.ltb 1 (length l) then choose k l else O) wg
    (fun order parent_ids child_ids _ => lft_randomized prio parent_ids child_ids pick order) (lft_momentum g est cs spec apt).
(** The same with timeline_type=JustInTimeTimeline (lft/base.py:93-97, 259-263). *)
Definition lft_scheduler_jit g est anonymous cs spec apt wg prio : lft_result (sched * jtimeline) :=
  lft_schedule g est anonymous cs spec (fun _ => argmax) wg
    (fun order _ child_ids dur => lft_order prio child_ids dur order) (lft_jit g est cs spec apt).
Definition randomized_lft_scheduler_jit g est anonymous cs spec apt wg prio (choose : nat -> list Q -> nat) pick : lft_result (sched * jtimeline) :=
  lft_schedule g est anonymous cs spec (fun k l => if Nat.ltb 1 (length l) then choose k l else O) wg
    (fun order parent_ids child_ids _ => lft_randomized prio parent_ids child_ids pick order) (lft_jit g est cs spec apt).
