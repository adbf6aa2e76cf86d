(** Model of sampo/scheduler/utils/local_optimization.py: the local optimizers of the order
    of works and of the schedule. Not modelled: the lines printed. *)
From Coq Require Import ZArith List Bool Arith.
From Verif Require Import TimeModel MomentumModel JITModel GraphModel ScheduleModel.
Import ListNotations.

(** The dictionary node2ind: the newest entry of a node comes first. *)
Definition indices := list (nat * nat).
Fixpoint ind_get (d : indices) (n : nat) : option nat :=
  match d with
  | [] => None
  | (m, i) :: r => if Nat.eqb m n then Some i else ind_get r n
  end.
(** [node2ind.get(node, 0)] *)
Definition ind_or0 (d : indices) (n : nat) : nat := match ind_get d n with Some i => i | None => 0 end.
Definition has (l : list nat) (n : nat) : bool := existsb (Nat.eqb n) l.
(** [l[start:stop]] for bounds that are not negative *)
Definition slice {A} (l : list A) (start stop : nat) : list A := firstn (stop - start) (skipn start l).
(** local_optimization.py:114-115 and 220-221 *)
Definition area_indices (order : list nat) (start stop : nat) : indices :=
  combine (slice order start stop) (seq start (stop - start)).

(** local_optimization.py:79-90, is_candidate_accepted; [None] is a KeyError *)
Definition candidate_accepted (g : graph) (node i : nat) (d : indices) (processed : list nat) (c : nat) : option bool :=
  if has (children g node) c || has processed c then Some false
  else match ind_get d c with
       | None => None
       | Some ci => Some (negb (existsb (fun ch => ci <=? ind_or0 d ch) (children g node)) &&
                          negb (existsb (fun p => ind_or0 d p <=? i) (parents g c)))
       end.
(** local_optimization.py:62-92, get_swap_candidates *)
Fixpoint swap_candidates (g : graph) (node i : nat) (d : indices) (processed cs : list nat) : option (list nat) :=
  match cs with
  | [] => Some []
  | c :: r =>
      match candidate_accepted g node i d processed c, swap_candidates g node i d processed r with
      | Some b, Some l => Some (if b then c :: l else l)
      | _, _ => None
      end
  end.
Fixpoint set_nth {A} (l : list A) (i : nat) (x : A) : list A :=
  match l, i with
  | [], _ => []
  | _ :: r, O => x :: r
  | y :: r, S j => y :: set_nth r j x
  end.

Section Swap.
  Variable g : graph.
  Variable start : nat.
  (** local_optimization.py:121-140, one round of the loop at index [i]; [None] is an
      IndexError or a KeyError *)
  Definition swap_step (i : nat) (st : list nat * indices * list nat) : option (list nat * indices * list nat) :=
    let '(order, d, processed) := st in
    match nth_error order i with
    | None => None
    | Some node =>
        if has processed node then Some st
        else
          match swap_candidates g node i d processed (slice order start i) with
          | None => None
          | Some [] => Some (order, d, node :: processed)
          | Some (c :: _) =>
              match ind_get d c with
              | None => None
              | Some j =>
                  match nth_error order j with
                  | None => None
                  | Some other => Some (set_nth (set_nth order i other) j node, (node, j) :: (c, i) :: d, node :: c :: processed)
                  end
              end
          end
    end.
  (** the loop over reversed(range(start, start + n)) *)
  Fixpoint swap_loop (n : nat) (st : list nat * indices * list nat) : option (list nat * indices * list nat) :=
    match n with
    | O => Some st
    | S n' => match swap_step (start + n') st with None => None | Some st' => swap_loop n' st' end
    end.
End Swap.
(** local_optimization.py:95-143, SwapOrderLocalOptimizer.optimize with
    [area = range(start, stop)] *)
Definition swap_optimize (g : graph) (start stop : nat) (order : list nat) : option (list nat) :=
  match swap_loop g start (stop - start) (order, area_indices order start stop, []) with
  | None => None
  | Some (o, _, _) => Some o
  end.
(** schemas/apply_queue.py and pipeline/default.py:236-239: the optimizers one after the
    other on the order of the scheduler *)
Fixpoint optimize_order (g : graph) (areas : list (nat * nat)) (order : list nat) : option (list nat) :=
  match areas with
  | [] => Some order
  | (a, b) :: r => match swap_optimize g a b order with None => None | Some o => optimize_order g r o end
  end.

(** ** ParallelizeScheduleLocalOptimizer *)
Section Parallelize.
  Variable g : graph.
  (** the class of the timeline used for the new schedule *)
  Variable tstate : Type.
  Variable init : list (nat * nat * Z) -> tstate.
  Variable schedule : sched -> tstate -> nat -> list worker -> nat -> work_spec -> option Z -> Z -> option (sched * tstate).
  Variable contractors : list contractor.
  Variable spec : nat -> work_spec.
  (** local_optimization.py:239-290, the candidates for one node: the first line that looks
      at a worker of a candidate reads [worker.model_name], which a Worker does not have
      ([None] is the AttributeError, or a KeyError); a candidate without workers ends the
      loop and changes nothing. *)
  Definition share (sd : sched) (cs : list nat) : option unit :=
    match cs with
    | [] => Some tt
    | c :: _ => match sd_get sd c with
                | None => None
                | Some w => match sw_team w with [] => Some tt | _ :: _ => None end
                end
    end.
  (** local_optimization.py:225-290, the loop; [processed] stays empty *)
  Fixpoint share_loop (sd : sched) (order : list nat) (d : indices) (start n : nat) : option unit :=
    match n with
    | O => Some tt
    | S n' =>
        match nth_error order (start + n') with
        | None => None
        | Some node =>
            match swap_candidates g node (start + n') d [] (slice order start (start + n')), sd_get sd node with
            | Some cs, Some _ => match share sd cs with None => None | Some _ => share_loop sd order d start n' end
            | _, _ => None
            end
        end
    end.
  (** local_optimization.py:155-195, recalc_schedule. After each call of [schedule] the entry
      of the node is replaced by the old one. *)
  Fixpoint recalc (apt : Z) (old : sched) (nodes : list nat) (sd : sched) (s : tstate) : option sched :=
    match nodes with
    | [] => Some sd
    | n :: r =>
        match sd_get old n with
        | None => None
        | Some w =>
            if has (map ct_id contractors) (sw_contractor w) then
              match schedule sd s n (sw_team w) (sw_contractor w) (spec n) None apt with
              | None => None
              | Some (sd', s') => recalc apt old r ((n, w) :: sd') s'
              end
            else None
        end
    end.
  (** local_optimization.py:197-293, optimize *)
  Definition parallelize (apt : Z) (start stop : nat) (old : sched) (order : list nat) : option sched :=
    match share_loop old order (area_indices order start stop) start (stop - start) with
    | None => None
    | Some _ => recalc apt old (rev order) [] (init (pool_of contractors))
    end.
End Parallelize.
