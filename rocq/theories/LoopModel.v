(** Model of the elimination of loops in the input, sampo/userinput/parser/general_build.py:24-146.
    Work identifiers are numbers, weights integers or None. *)
From Coq Require Import ZArith List Bool Arith.
From Verif Require Import TopoModel.
Import ListNotations.

(** general_build.py:25-26: the defaultdict in insertion order *)
Definition wgraph := list (nat * list (nat * option Z)).
Fixpoint wget (g : wgraph) (u : nat) : list (nat * option Z) :=
  match g with
  | [] => []
  | (k, l) :: r => if Nat.eqb k u then l else wget r u
  end.
Definition whas (g : wgraph) (u : nat) : bool := existsb (fun e => Nat.eqb (fst e) u) g.
(** reading a missing key enters an empty list *)
Definition wtouch (g : wgraph) (u : nat) : wgraph := if whas g u then g else g ++ [(u, [])].
Definition wset (g : wgraph) (u : nat) (l : list (nat * option Z)) : wgraph :=
  map (fun e => if Nat.eqb (fst e) u then (u, l) else e) g.
(** general_build.py:28-29, add_edge *)
Definition add_edge (g : wgraph) (u v : nat) (w : option Z) : wgraph :=
  let g' := wtouch g u in wset g' u (wget g' u ++ [(v, w)]).

(** The dictionary visited: 0, 1 or 2 for each node. *)
Definition marks := nat -> nat.
Definition mark (st : marks) (v k : nat) : marks := fun x => if Nat.eqb x v then k else st x.

(** general_build.py:43-47: [None] is the return of True *)
Fixpoint push_neighbours (st : marks) (l : list (nat * option Z)) (stack : list nat) : option (list nat) :=
  match l with
  | [] => Some stack
  | (n, _) :: r =>
      if Nat.eqb (st n) 0 then push_neighbours st r (n :: stack)
      else if Nat.eqb (st n) 1 then None
      else push_neighbours st r stack
  end.
(** general_build.py:31-48, dfs_cycle; the top of the stack is the head of the list.
    [None]: the loop did not end within [fuel] steps. *)
Fixpoint dfs_loop (fuel : nat) (g : wgraph) (stack : list nat) (st : marks) : option (bool * wgraph * marks) :=
  match stack with
  | [] => Some (false, g, st)
  | v :: rest =>
      match fuel with
      | O => None
      | S f =>
          if Nat.eqb (st v) 1 then dfs_loop f g rest (mark st v 2)
          else if Nat.eqb (st v) 2 then dfs_loop f g rest st
          else
            let st' := mark st v 1 in
            let g' := wtouch g v in
            match push_neighbours st' (wget g' v) (v :: rest) with
            | None => Some (true, g', st')
            | Some stack' => dfs_loop f g' stack' st'
            end
      end
  end.
Definition dfs_fuel (g : wgraph) : nat :=
  S (S (length g + 2 * length (concat (map snd g)))).
Definition dfs_cycle (g : wgraph) (u : nat) (st : marks) : option (bool * wgraph * marks) :=
  dfs_loop (dfs_fuel g) g [u] st.

(** general_build.py:51-55: the keys of visited in insertion order *)
Definition visited_keys (g : wgraph) : list nat :=
  fold_left (fun acc x => if mem x acc then acc else acc ++ [x])
            (concat (map (fun e => map fst (snd e) ++ [fst e]) g)) [].
(** general_build.py:63-68: the path is kept reversed *)
Fixpoint follow (fuel : nat) (g : wgraph) (st : marks) (path : list nat) : option (list nat) :=
  match fuel, path with
  | S f, v :: rest =>
      if mem v rest then Some path
      else
        let v' := match find (fun e => Nat.eqb (st (fst e)) 1) (wget g v) with
                  | Some (n, _) => n
                  | None => v
                  end in
        follow f g st (v' :: path)
  | _, _ => None
  end.
(** general_build.py:58-73 *)
Inductive found := NoCycle (g : wgraph) | Cycle (g : wgraph) (path : list nat).
Fixpoint find_loop (g : wgraph) (keys : list nat) (total : nat) (st : marks) : option found :=
  match keys with
  | [] => Some (NoCycle g)
  | k :: r =>
      if Nat.eqb (st k) 0 then
        match dfs_cycle g k st with
        | None => None
        | Some (false, g', st') => find_loop g' r total st'
        | Some (true, g', st') =>
            match follow (S (S total)) g' st' [k] with
            | None => None
            | Some path => Some (Cycle g' (rev path))
            end
        end
      else find_loop g r total st
  end.
(** general_build.py:50-73, find_cycle *)
Definition find_cycle (g : wgraph) : option found :=
  find_loop g (visited_keys g) (length (visited_keys g)) (fun _ => 0).

(** general_build.py:79-88; the best edge so far with its weight, None being infinity *)
Definition weight_of (w : option Z) : Z := match w with None => 1%Z | Some z => z end.
Fixpoint best_link (u v : nat) (l : list (nat * option Z)) (best : option (Z * (nat * nat))) : option (Z * (nat * nat)) :=
  match l with
  | [] => best
  | (n, w) :: r =>
      best_link u v r
        (if Nat.eqb n v && match best with None => true | Some (b, _) => Z.leb (weight_of w) b end
         then Some (weight_of w, (u, v)) else best)
  end.
Fixpoint best_edge (g : wgraph) (cycle : list nat) (best : option (Z * (nat * nat))) : option (Z * (nat * nat)) :=
  match cycle with
  | u :: ((v :: _) as r) => best_edge g r (best_link u v (wget g u) best)
  | _ => best
  end.
(** general_build.py:75-91, eliminate_cycle; [None] is the TypeError of unpacking None *)
Definition eliminate_cycle (g : wgraph) (cycle : list nat) : option wgraph :=
  match best_edge g cycle None with
  | None => None
  | Some (_, (u, v)) => Some (wset g u (filter (fun e => negb (Nat.eqb (fst e) v)) (wget g u)))
  end.
(** general_build.py:98-101: from the first occurrence of the last element *)
Fixpoint cut_to (x : nat) (path : list nat) : list nat :=
  match path with
  | [] => []
  | y :: r => if Nat.eqb y x then path else cut_to x r
  end.
(** general_build.py:93-107; the answers are the final graph and the cycles found, one per
    iteration. [fuel] bounds the iterations of the while loop. *)
Fixpoint eliminate_loop (fuel : nat) (g : wgraph) (cycles : list (list nat)) : option (wgraph * list (list nat)) :=
  match find_cycle g with
  | None => None
  | Some (NoCycle g') => Some (g', cycles)
  | Some (Cycle g' path) =>
      match fuel with
      | O => None
      | S f =>
          let cycle := cut_to (last path 0) path in
          match eliminate_cycle g' cycle with
          | None => None
          | Some g'' => eliminate_loop f g'' (cycles ++ [cycle])
          end
      end
  end.
Definition link_count (g : wgraph) : nat := length (concat (map snd g)).
Definition eliminate_all (g : wgraph) : option (wgraph * list (list nat)) :=
  eliminate_loop (link_count g) g [].
(** general_build.py:93-113, eliminate_cycles() *)
Definition eliminate_cycles (g : wgraph) : option (list (nat * list nat)) :=
  match eliminate_all g with
  | None => None
  | Some (g', _) => Some (map (fun e => (fst e, map fst (snd e))) g')
  end.
(** general_build.py:108-111, eliminate_cycles(False) *)
Definition list_cycles (g : wgraph) : option (option (list (list nat))) :=
  match eliminate_all g with
  | None => None
  | Some (_, []) => Some None
  | Some (_, cs) => Some (Some cs)
  end.

(** general_build.py:116-146. A row is an activity and its links, one per position of the
    lists predecessor_ids, connection_types, lags and counts, taken of equal length; the
    predecessor '-1' is None. *)
Record link (A : Type) := Link { ln_pred : option nat; ln_data : A; ln_count : option Z }.
Arguments Link {A}. Arguments ln_pred {A}. Arguments ln_data {A}. Arguments ln_count {A}.
Definition row (A : Type) := (nat * list (link A))%type.
(** general_build.py:124-130 *)
Definition add_row {A} (g : wgraph) (r : row A) : wgraph :=
  fold_left (fun g l => match ln_pred l with None => g | Some p => add_edge g p (fst r) (ln_count l) end) (snd r) g.
Definition input_graph {A} (rows : list (row A)) : wgraph := fold_left add_row rows [].
(** general_build.py:133-145 *)
Fixpoint ids_get (g : list (nat * list nat)) (u : nat) : option (list nat) :=
  match g with
  | [] => None
  | (k, l) :: r => if Nat.eqb k u then Some l else ids_get r u
  end.
Fixpoint keep_links {A} (g : list (nat * list nat)) (activity : nat) (ls : list (link A)) : list (link A) :=
  match ls with
  | [] => []
  | l :: r =>
      let stays := match ln_pred l with
                   | None => true
                   | Some p => match ids_get g p with None => true | Some vs => mem activity vs end
                   end in
      if stays then l :: keep_links g activity r else keep_links g activity r
  end.
Definition break_loops {A} (rows : list (row A)) : option (list (row A)) :=
  match eliminate_cycles (input_graph rows) with
  | None => None
  | Some g => Some (map (fun r => (fst r, keep_links g (fst r) (snd r))) rows)
  end.
