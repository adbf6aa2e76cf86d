(** Model of sampo/structurator/base.py: works are split into stages so that only
    Finish-Start and Inseparable-Finish-Start edges remain. *)
From Coq Require Import ZArith QArith Qround List Bool.
From Verif Require Import GraphModel.
Import ListNotations.
Local Open Scope Q_scope.

(** An edge of the original graph; lags are floats in the code and rationals here. *)
Record redge := RE { re_from : nat; re_to : nat; re_lag : Q; re_type : edge_type }.
(** The original graph: its works in the topological order of WorkGraph.nodes, its edges in
    the order in which they were added, the volume of each work (a float in the code), and the
    amounts of its requirements: one list for each of worker_reqs (volumes), equipment_reqs,
    object_reqs and material_reqs (counts). The other fields of requirements and works are
    copied to every stage and left out. *)
Record rgraph := RG { rg_nodes : list nat; rg_edges : list redge; rg_volume : nat -> Q; rg_amounts : nat -> list (list Z) }.

(** base.py:13-22, make_new_node_id: [(w, Some i)] is stage i of work w and [(w, None)] is
    the id of the work itself, which the last stage keeps. In the code the ids are strings;
    ids of different stages are taken to be different. *)
Definition nid := (nat * option nat)%type.
Definition nid_eqb (a b : nid) : bool :=
  Nat.eqb (fst a) (fst b) &&
  match snd a, snd b with None, None => true | Some i, Some j => Nat.eqb i j | _, _ => false end.
(** A stage: id, share of the volume, amounts of the requirements. *)
Record stage := St { st_id : nid; st_share : Q; st_amounts : list (list Z) }.
(** An edge of the new graph. *)
Record nedge := NE { ne_from : nid; ne_to : nid; ne_lag : Q; ne_type : edge_type }.

(** Python's int() of a number *)
Definition qint (q : Q) : Z := Z.quot (Qnum q) (Zpos (Qden q)).
(** base.py:134-153, get_reqs_amounts *)
Definition share_amounts (p : Q) (amounts : list (list Z)) : list (list Z) :=
  map (map (fun a => qint (p * inject_Z a))) amounts.
Fixpoint zip_with {A B C} (f : A -> B -> C) (l : list A) (m : list B) : list C :=
  match l, m with a :: l', b :: m' => f a b :: zip_with f l' m' | _, _ => [] end.
Definition add_amounts (a b : list (list Z)) : list (list Z) := zip_with (zip_with Z.add) a b.
Definition sub_amounts (a b : list (list Z)) : list (list Z) := zip_with (zip_with Z.sub) a b.

(** base.py:229-241, the accumulated share at which an edge divides a work *)
Definition proportion (volume : nat -> Q) (use_lag : bool) (e : redge) (is_edge_to_node : bool) : Q :=
  (if is_edge_to_node then 1 else 0) +
  (if use_lag && negb (Qle_bool (re_lag e) 0) && Qle_bool (re_lag e) (volume (re_from e))
   then (if is_edge_to_node then -1 else 1) * re_lag e / volume (re_from e) else 0).

(** list.sort with key itemgetter(0) *)
Definition pedge := (Q * (redge * bool))%type.
Fixpoint pinsert (x : pedge) (l : list pedge) : list pedge :=
  match l with
  | [] => [x]
  | y :: r => if Qle_bool (fst x) (fst y) then x :: l else y :: pinsert x r
  end.
Fixpoint psort (l : list pedge) : list pedge :=
  match l with [] => [] | x :: r => pinsert x (psort r) end.

(** base.py:195-207, match_prev_edges_with_stage_nodes_id: the assignments it makes *)
Definition matches (pending : list (redge * bool)) (prev cur : nid) : list ((nat * nat) * nid) :=
  map (fun x => let '(e, is_to) := x in
         if is_to : bool then ((re_to e, re_from e), cur) else ((re_from e, re_to e), prev)) pending.

(** The state of the loop: stage_i, prev_accum, reqs2amounts_accum, the stages and
    assignments made so far in order, and edges_to_match_with_stage_nodes. *)
Record sstate := SS_ { ss_i : nat; ss_prev : Q; ss_accum : list (list Z);
  ss_stages : list stage; ss_matches : list ((nat * nat) * nid); ss_pending : list (redge * bool) }.
Section Split.
  Variables (w : nat) (amounts : list (list Z)) (use_lag : bool).
  (** base.py:268-304, one round of the loop over the accumulations *)
  Definition split_step (s : sstate) (x : pedge) : sstate :=
    let '(accum, ed) := x in
    if Qeq_bool accum (ss_prev s) then
      SS_ (ss_i s) (ss_prev s) (ss_accum s) (ss_stages s) (ss_matches s) (if use_lag then ss_pending s ++ [ed] else ss_pending s)
    else
      let i := S (ss_i s) in
      let p := accum - ss_prev s in
      let am := share_amounts p amounts in
      SS_ i accum (add_amounts (ss_accum s) am) (ss_stages s ++ [St (w, Some i) p am])
          (ss_matches s ++ (if use_lag then matches (ss_pending s) (w, Some (ss_i s)) (w, Some i) else []))
          (if use_lag then [ed] else ss_pending s).
  (** base.py:249-266, the first stage *)
  Definition split_first (x : pedge) : sstate :=
    let '(accum, ed) := x in
    let am := share_amounts accum amounts in
    SS_ 0 accum (add_amounts (map (map (fun _ => 0%Z)) amounts) am) [St (w, Some 0%nat) accum am] [] (if use_lag then [ed] else []).
  (** base.py:306-329, the last stage *)
  Definition split_last (s : sstate) : list stage * list ((nat * nat) * nid) :=
    (ss_stages s ++ [St (w, None) (1 - ss_prev s) (sub_amounts amounts (ss_accum s))],
     ss_matches s ++ (if use_lag then matches (ss_pending s) (w, Some (ss_i s)) (w, None) else [])).
  (** base.py:113-329, split_node_into_stages *)
  Definition split_work (volume : nat -> Q) (restructuring : list (redge * bool)) : list stage * list ((nat * nat) * nid) :=
    match psort (map (fun x => (proportion volume use_lag (fst x) (snd x), x)) restructuring) with
    | [] => ([St (w, None) 1 amounts], [])
    | x :: r => split_last (fold_left split_step r (split_first x))
    end.
End Split.
(** base.py:281-284, 320-323: every stage but the first gets an inseparable edge from the one
    before *)
Fixpoint stage_links (l : list stage) : list nedge :=
  match l with
  | a :: ((b :: _) as r) => NE (st_id a) (st_id b) 0 IFS :: stage_links r
  | _ => []
  end.

(** The dictionary restructuring_edges2new_nodes_id *)
Definition pairs := (nat * nat)%type.
Definition pair_eqb (a b : pairs) : bool := Nat.eqb (fst a) (fst b) && Nat.eqb (snd a) (snd b).
Definition dict := pairs -> option nid.
Definition d_set (d : dict) (x : pairs * nid) : dict := fun k => if pair_eqb k (fst x) then Some (snd x) else d k.
Definition d_del (d : dict) (key : pairs) : dict := fun k => if pair_eqb k key then None else d k.

Definition has_node (nodes : list stage) (i : nid) : bool := existsb (fun s => nid_eqb (st_id s) i) nodes.
Definition first_stage (nodes : list stage) (w : nat) : nid := if has_node nodes (w, Some 0%nat) then (w, Some 0%nat) else (w, None).
(** The parents collected for the first stage, for the last stage, and the edges added at once. *)
Record fstate := FS_ { fs_dict : dict; fs_first : list (nid * Q * edge_type); fs_last : list (nid * Q * edge_type); fs_now : list nedge }.
(** the lookup id2new_nodes[i]; [None] is KeyError *)
Definition with_node {A} (nodes : list stage) (i : nid) (a : option A) : option A := if has_node nodes i then a else None.
(** base.py:53-105, one edge into a work *)
Definition fill_edge (use_lag : bool) (nodes : list stage) (s : fstate) (e : redge) : option fstate :=
  let u := re_from e in
  let v := re_to e in
  let first p lag t := with_node nodes p (Some (FS_ (fs_dict s) (fs_first s ++ [(p, lag, t)]) (fs_last s) (fs_now s))) in
  match re_type e with
  | IFS => first (u, None) 0 IFS
  | FS => first (u, None) (inject_Z (Qceiling (re_lag e))) FS
  | SS =>
      if use_lag then
        match fs_dict s (u, v) with
        | None => None
        | Some p => with_node nodes p (Some (FS_ (d_del (fs_dict s) (u, v)) (fs_first s ++ [(p, 0, FS)]) (fs_last s) (fs_now s)))
        end
      else first (u, Some 0%nat) 0 FS
  | FF =>
      if use_lag then
        match fs_dict s (v, u) with
        | None => None
        | Some q => with_node nodes q (with_node nodes (u, None)
            (Some (FS_ (d_del (fs_dict s) (v, u)) (fs_first s) (fs_last s) (fs_now s ++ [NE (u, None) q 0 FS]))))
        end
      else with_node nodes (u, None) (Some (FS_ (fs_dict s) (fs_first s) (fs_last s ++ [((u, None), 0, FS)]) (fs_now s)))
  | FFS =>
      if use_lag then
        match fs_dict s (u, v) with
        | None => None
        | Some p =>
            match d_del (fs_dict s) (u, v) (v, u) with
            | None => None
            | Some q => with_node nodes p (with_node nodes q (with_node nodes (u, None)
                (Some (FS_ (d_del (d_del (fs_dict s) (u, v)) (v, u)) (fs_first s ++ [(p, 0, FS)]) (fs_last s) (fs_now s ++ [NE (u, None) q 0 FS])))))
            end
        end
      else first (u, None) 0 FS
  end.
Fixpoint fill_edges (use_lag : bool) (nodes : list stage) (s : fstate) (es : list redge) : option fstate :=
  match es with
  | [] => Some s
  | e :: r => match fill_edge use_lag nodes s e with None => None | Some s' => fill_edges use_lag nodes s' r end
  end.
(** GraphNode.add_parents *)
Definition to_node (x : nid) (l : list (nid * Q * edge_type)) : list nedge := map (fun '(p, lag, t) => NE p x lag t) l.

(** The state of graph_restructuring: id2new_nodes in the order of insertion, the dictionary,
    and the edges of the new graph in the order in which they were added. *)
Record gstate := GS_ { gs_nodes : list stage; gs_dict : dict; gs_edges : list nedge }.
(** base.py:25-110, fill_parents_to_new_nodes *)
Definition fill_parents (g : rgraph) (use_lag : bool) (w : nat) (s : gstate) : option gstate :=
  match fill_edges use_lag (gs_nodes s) (FS_ (gs_dict s) [] [] []) (filter (fun e => Nat.eqb (re_to e) w) (rg_edges g)) with
  | None => None
  | Some f =>
      Some (GS_ (gs_nodes s) (fs_dict f)
        (gs_edges s ++ fs_now f ++ to_node (first_stage (gs_nodes s) w) (fs_first f) ++ to_node (w, None) (fs_last f)))
  end.
(** base.py:364-371, the edges that divide a work into stages, and whether they enter it *)
Definition is_ss (t : edge_type) : bool := match t with SS => true | _ => false end.
Definition is_ff (t : edge_type) : bool := match t with FF => true | _ => false end.
Definition is_ffs (t : edge_type) : bool := match t with FFS => true | _ => false end.
Definition restructuring_edges (g : rgraph) (use_lag : bool) (w : nat) : list (redge * bool) :=
  let from := filter (fun e => Nat.eqb (re_from e) w) (rg_edges g) in
  let to := filter (fun e => Nat.eqb (re_to e) w) (rg_edges g) in
  let pick (l : list redge) (f : edge_type -> bool) (b : bool) := map (fun e => (e, b)) (filter (fun e => f (re_type e)) l) in
  pick from is_ss false ++ pick to is_ff true ++ (if use_lag then pick to is_ffs true ++ pick from is_ffs false else []).
(** base.py:363-375, one round of the loop *)
Definition restructure_node (g : rgraph) (use_lag : bool) (s : gstate) (w : nat) : option gstate :=
  let '(stages, ms) := split_work w (rg_amounts g w) use_lag (rg_volume g) (restructuring_edges g use_lag w) in
  fill_parents g use_lag w (GS_ (gs_nodes s ++ stages) (fold_left d_set ms (gs_dict s)) (gs_edges s ++ stage_links stages)).
Fixpoint restructure_nodes (g : rgraph) (use_lag : bool) (s : gstate) (ws : list nat) : option gstate :=
  match ws with
  | [] => Some s
  | w :: r => match restructure_node g use_lag s w with None => None | Some s' => restructure_nodes g use_lag s' r end
  end.
(** base.py:332-375, graph_restructuring without the final WorkGraph constructor and the
    correction of priorities (modelled in TopoModel) *)
Definition restructure (g : rgraph) (use_lag : bool) : option (list stage * list nedge) :=
  match restructure_nodes g use_lag (GS_ [] (fun _ => None) []) (rg_nodes g) with
  | None => None
  | Some s => Some (gs_nodes s, gs_edges s)
  end.
