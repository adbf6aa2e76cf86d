(** Model of the generation of contractors (sampo/generator/environment/contractor.py and
    contractor_by_wg.py), of the check of contractors in front of scheduling and of the
    default pipeline (sampo/pipeline/default.py). *)
From Coq Require Import ZArith List Bool QArith Qround.
From Verif Require Import TimeModel MomentumModel JITModel GraphModel ScheduleModel TopoModel PipelineModel ResourceModel.
Import ListNotations.
Local Open Scope Z_scope.

(** ** pipeline/default.py:28-48, contractors_can_perform_work_graph *)
(** default.py:36-39, the loop over the requirements with the shared flag
    is_at_least_one_contractor_can_perform; [None] is the KeyError of offers[req.kind]. *)
Fixpoint offers_loop (offers : list (nat * Z)) (reqs : list req) (flag : bool) : option bool :=
  match reqs with
  | [] => Some flag
  | r :: rest =>
      match assoc_get offers (r_kind r) with
      | None => None
      | Some count => if count <? r_min r then Some false else offers_loop offers rest flag
      end
  end.
(** default.py:34-43, the loop over the contractors; [num] is
    num_contractors_can_perform_node *)
Fixpoint contractors_loop (contractors : list contractor) (reqs : list req) (flag : bool) (num : nat) : option (bool * nat) :=
  match contractors with
  | [] => Some (flag, num)
  | c :: rest =>
      match offers_loop (ct_workers c) reqs flag with
      | None => None
      | Some true => Some (true, S num)
      | Some false => contractors_loop rest reqs true num
      end
  end.
(** default.py:32-48, the loop over the nodes, given by their requirements *)
Fixpoint nodes_loop (contractors : list contractor) (works : list (list req)) (flag : bool) (num : nat) : option bool :=
  match works with
  | [] => Some true
  | reqs :: rest =>
      match contractors_loop contractors reqs flag num with
      | None => None
      | Some (flag', num') => if Nat.eqb num' 0 then Some false else nodes_loop contractors rest flag' 0
      end
  end.
Definition contractors_can_perform_work_graph (contractors : list contractor) (g : graph) (nodes : list nat) : option bool :=
  nodes_loop contractors (map (fun n => u_reqs (g_unit g n)) nodes) true 0.

(** ** schemas/interval.py *)
(** Python's int() of a number: towards zero *)
Definition py_int (q : Q) : Z := Z.quot (Qnum q) (Z.pos (Qden q)).
(** Python's round(): to the nearest integer, halves to the even one *)
Definition py_round (q : Q) : Z :=
  let f := Qfloor q in
  match Qcompare (q - inject_Z f) (1 # 2) with
  | Lt => f
  | Gt => f + 1
  | Eq => if Z.even f then f else f + 1
  end.
(** interval.py:10 *)
Definition EPS : Q := 100000.
(** interval.py:115-127, IntervalGaussian.rand_int for the value that rand.gauss gave; for
    sigma 0 that is the mean. Numbers are rationals instead of floats. *)
Definition rand_int (gauss min_val max_val : Q) : Z :=
  Z.min (Z.max (py_round gauss) (py_int (min_val - EPS))) (py_int (max_val + EPS)).

(** ** generator/environment *)
(** contractor.py:10-31 with sigma_scaler = 0 and available_types = None *)
Definition stochastic_counts (pack_count : Q) (proportions : list (nat * Z)) : list (nat * Z) :=
  map (fun p => (fst p, rand_int (inject_Z (snd p) * pack_count) (inject_Z (snd p)) (inject_Z (snd p) * pack_count)))
      proportions.
(** contractor.py:67-96, get_contractor *)
Definition get_contractor (pack_count : Q) (proportions : list (nat * Z)) (id : nat) : contractor :=
  Ct id (stochastic_counts pack_count proportions).

(** contractor_by_wg.py:11-14 *)
Inductive generation_method := MIN | MAX | AVG.
(** contractor_by_wg.py:17-31, _value_by_req *)
Definition value_by_req (method : generation_method) (r : req) : Z :=
  match method with
  | MIN => r_min r
  | AVG => py_int (inject_Z (r_min r + r_max r) / 2)
  | MAX => r_max r
  end.
(** sorted() of pairs: by the first component, then by the second. The kinds are numbers
    instead of strings. *)
Definition pair_leb (a b : nat * Z) : bool :=
  Nat.ltb (fst a) (fst b) || (Nat.eqb (fst a) (fst b) && (snd a <=? snd b)).
Fixpoint insert_pair (x : nat * Z) (l : list (nat * Z)) : list (nat * Z) :=
  match l with
  | [] => [x]
  | y :: r => if pair_leb x y then x :: l else y :: insert_pair x r
  end.
Definition sort_pairs (l : list (nat * Z)) : list (nat * Z) := fold_right insert_pair [] l.
(** contractor_by_wg.py:54-55: groupby on the kind and the last pair of each group *)
Fixpoint last_of_groups (l : list (nat * Z)) : list (nat * Z) :=
  match l with
  | [] => []
  | x :: r =>
      match r with
      | [] => [x]
      | y :: _ => if Nat.eqb (fst x) (fst y) then last_of_groups r else x :: last_of_groups r
      end
  end.
(** contractor_by_wg.py:34-57, get_contractor_by_wg; [None] is the ValueError *)
Definition get_contractor_by_wg (g : graph) (nodes : list nat) (scaler : Q) (method : generation_method) (id : nat)
  : option contractor :=
  if negb (Qle_bool 1 scaler) then None
  else
    let wg_reqs := concat (map (fun n => u_reqs (g_unit g n)) nodes) in
    let min_wg_reqs := map (fun r => (r_kind r, value_by_req method r)) wg_reqs in
    Some (get_contractor scaler (last_of_groups (sort_pairs min_wg_reqs)) id).

(** ** pipeline/default.py, DefaultInputPipeline.schedule *)
(** The contractors argument: a list, or method, number and scaler *)
Inductive contractors_input := Given (l : list contractor) | Generate (method : generation_method) (number : nat) (scaler : Q).
(** default.py:207-216 *)
Definition pipeline_contractors (g : graph) (nodes : list nat) (input : contractors_input) : option (list contractor) :=
  match input with
  | Given l => Some l
  | Generate method number scaler =>
      fold_right (fun i acc => match get_contractor_by_wg g nodes scaler method i, acc with
                               | Some c, Some l => Some (c :: l)
                               | _, _ => None
                               end) (Some []) (seq 0 number)
  end.
(** default.py:189-284, schedule, for a WorkGraph and the default lag strategy (FALSE,
    which the match sends to its last case), without local optimizers. [run] is
    schedule_with_cache of the scheduler with the corrected priorities. [depth] bounds the
    recursion of the priority correction. *)
Definition pipeline_schedule {T} (depth : nat) (g : graph) (nodes : list nat) (prio : nat -> Z) (input : contractors_input)
           (run : (nat -> Z) -> list contractor -> scheduled T) : scheduled T :=
  match check_and_correct depth g nodes prio with
  | None => InternalError
  | Some prio' =>
      match pipeline_contractors g nodes input with
      | None => InternalError
      | Some cs =>
          match contractors_can_perform_work_graph cs g nodes with
          | None => InternalError
          | Some false => NotEnoughWorkers
          | Some true => run prio' cs
          end
      end
  end.
