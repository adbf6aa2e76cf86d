(** Model of the ordering of the rows of a Schedule (sampo/schemas/schedule.py). *)
From Coq Require Import ZArith List Bool.
From Verif Require Import TimeModel MomentumModel GraphModel StableSort TopoModel TraverseModel ValidationModel.
Import ListNotations.

(** schedule.py:216-221, one pass over the works that start at the same time: what remains
    and what has been added to the result, in order. *)
Fixpoint class_pass (g : graph) (cls not_added : list nat) : list nat * list nat :=
  match cls with
  | [] => (not_added, [])
  | n :: r =>
      if existsb (fun p => mem p not_added) (parents g n) then class_pass g r not_added
      else let '(na, out) := class_pass g r (remove Nat.eq_dec n not_added) in (na, n :: out)
  end.
Section Order.
  (** the order in which a set is iterated *)
  Variable listing : list nat -> list nat.
  (** schedule.py:214-222 and 226-233, the while loop *)
  Fixpoint class_loop (fuel : nat) (g : graph) (cls : list nat) : run (list nat) :=
    match cls with
    | [] => Ends []
    | _ =>
        match fuel with
        | O => Running
        | S fuel' =>
            let '(na, out) := class_pass g (listing cls) cls in
            match class_loop fuel' g na with
            | Ends l => Ends (out ++ l)
            | Running => Running
            end
        end
    end.
  (** a set with one more element *)
  Definition set_add (n : nat) (cls : list nat) : list nat := if mem n cls then cls else n :: cls.
  (** schedule.py:204-233, the loop over the works sorted by start time *)
  Fixpoint classes (fuel : nat) (g : graph) (l : list (Z * nat)) (cur_time : Z) (cls : list nat)
    : run (list nat) :=
    match l with
    | [] => class_loop fuel g cls
    | (t, n) :: r =>
        let cur := match cls with [] => t | _ => cur_time end in
        if Z.eqb t cur then classes fuel g r cur (set_add n cls)
        else
          match class_loop fuel g cls with
          | Running => Running
          | Ends out =>
              match classes fuel g r t [n] with
              | Ends out' => Ends (out ++ out')
              | Running => Running
              end
          end
    end.
  (** schedule.py:193-235, order_nodes_by_start_time *)
  Definition order_nodes_by_start_time (g : graph) (ws : works) : run (list nat) :=
    classes (length ws) g (map (fun x => (sw_start (snd x), fst x)) (sort_by (fun x => sw_start (snd x)) ws)) 0%Z [].
  (** schedule.py:137-190, from_scheduled_works with a work graph: the rows sorted by the
      position of their id in that order. *)
  Definition schedule_rows (g : graph) (ws : works) : run works :=
    match order_nodes_by_start_time g ws with
    | Running => Running
    | Ends ids => Ends (concat (map (fun n => filter (fun x => Nat.eqb (fst x) n) ws) ids))
    end.
End Order.
