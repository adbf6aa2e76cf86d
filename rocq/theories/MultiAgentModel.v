(** Model of sampo/scheduler/multi_agency: block graphs, agents, the auction and the
    management of blocks. *)
From Coq Require Import ZArith List Bool.
From Verif Require Import TimeModel TopoModel.
Import ListNotations.

(** ** Block graphs: block_graph.py *)
(** block_graph.py:10-26, 36-38: the blocks by number, which stands for their ids, and the
    lists blocks_to and blocks_from. Obstructions are taken as already applied. *)
Record block_graph := BG { bg_nodes : list nat; bg_to : nat -> list nat; bg_from : nat -> list nat }.
(** block_graph.py:40-49, pure *)
Definition pure (nodes : list nat) : block_graph := BG nodes (fun _ => []) (fun _ => []).
(** block_graph.py:121-124, add_edge *)
Definition add_block_edge (bg : block_graph) (e : nat * nat) : block_graph :=
  BG (bg_nodes bg)
     (fun x => if Nat.eqb x (fst e) then bg_to bg x ++ [snd e] else bg_to bg x)
     (fun x => if Nat.eqb x (snd e) then bg_from bg x ++ [fst e] else bg_from bg x).
(** The block graph that is built by adding edges to a graph without any. *)
Definition block_graph_of (nodes : list nat) (edges : list (nat * nat)) : block_graph :=
  fold_left add_block_edge edges (pure nodes).

(** block_graph.py:59-67, __copy__: the blocks in blocks_to become the predecessors *)
Definition copy_block_graph (bg : block_graph) : block_graph :=
  fold_left (fun c n => fold_left (fun c p => add_block_edge c (p, n)) (bg_to bg n) c)
            (bg_nodes bg) (pure (bg_nodes bg)).

(** block_graph.py:69-96, to_work_graph: the edges added between the works of the blocks.
    Deserialising a copy of every block is the identity here. *)
Inductive port := GlobalStart | GlobalEnd | StartOf (b : nat) | FinishOf (b : nat).
Definition to_work_graph (bg : block_graph) : list (port * port) :=
  let c := copy_block_graph bg in
  let '(edges, ends) :=
    fold_left (fun acc b =>
                 let '(edges, ends) := acc in
                 let edges1 := edges ++ map (fun a => (FinishOf a, StartOf b)) (bg_to c b) in
                 let edges2 := match bg_to c b with [] => edges1 ++ [(GlobalStart, StartOf b)] | _ => edges1 end in
                 (edges2,
                  if existsb (fun e => match fst e with FinishOf a => Nat.eqb a b | _ => false end) edges2
                  then ends else ends ++ [b]))
              (bg_nodes c) ([], []) in
  edges ++ map (fun b => (FinishOf b, GlobalEnd)) ends.

(** block_graph.py:98-119, toposort; [ans] in the order of appending; [None]: the depth
    of the recursion is more than [fuel] *)
Fixpoint block_dfs (fuel : nat) (bg : block_graph) (u : nat) (st : list nat * list nat)
  : option (list nat * list nat) :=
  match fuel with
  | O => None
  | S fuel' =>
      match fold_left (fun acc v => match acc with
                                    | None => None
                                    | Some (vis, ans) => if mem v vis then Some (vis, ans)
                                                         else block_dfs fuel' bg v (vis, ans)
                                    end)
                      (bg_to bg u) (Some (u :: fst st, snd st)) with
      | Some (vis, ans) => Some (vis, ans ++ [u])
      | None => None
      end
  end.
Definition block_toposort (bg : block_graph) : option (list nat) :=
  match fold_left (fun acc v => match acc with
                                | None => None
                                | Some (vis, ans) => if mem v vis then Some (vis, ans)
                                                     else block_dfs (S (length (bg_nodes bg))) bg v (vis, ans)
                                end)
                  (bg_nodes bg) (Some ([], [])) with
  | Some (_, ans) => Some (rev ans)
  | None => None
  end.

(** ** Agents and the auction: multi_agency.py *)
Section Auction.
  (** Timelines and schedules are whatever the schedulers of the agents use. *)
  Variables (T S : Type).
  (** multi_agency.py:29-35: the state of an agent *)
  Record agent := Ag { ag_name : nat; ag_timeline : T; ag_last : Z; ag_downtime : Z }.
  Record offer_t := Of { of_start : Z; of_end : Z; of_schedule : S; of_timeline : T }.
  (** multi_agency.py:37-50, offer: what the scheduler of the agent at the given position
      answers for its timeline, a block and the parent time; the timeline is copied first.
      [again] marks the second request of an auction. [None] is an exception. *)
  Variable offer : nat -> bool -> T -> nat -> Z -> option offer_t.

  (** multi_agency.py:65-72, update_stat *)
  Definition update_stat (a : agent) (start : Z) : agent :=
    Ag (ag_name a) (ag_timeline a) (ag_last a) (tadd (ag_downtime a) (tmax 0 (tsub start (ag_last a)))).
  (** multi_agency.py:52-63, confirm *)
  Definition confirm (a : agent) (timeline : T) (start end_ : Z) : agent :=
    let a' := update_stat (Ag (ag_name a) timeline (ag_last a) (ag_downtime a)) start in
    Ag (ag_name a') (ag_timeline a') end_ (ag_downtime a').

  (** multi_agency.py:182, the offers of all agents, in their order *)
  Fixpoint offers_from (i : nat) (agents : list agent) (wg : nat) (parent_time : Z)
    : option (list (nat * offer_t)) :=
    match agents with
    | [] => Some []
    | a :: r =>
        match offer i false (ag_timeline a) wg parent_time, offers_from (Datatypes.S i) r wg parent_time with
        | Some o, Some l => Some ((i, o) :: l)
        | _, _ => None
        end
    end.
  (** multi_agency.py:176-190, the position of the best agent *)
  Fixpoint best_offer (l : list (nat * offer_t)) (best_end : Z) (best : option nat) : option nat :=
    match l with
    | [] => best
    | (i, o) :: r => if tlt (of_end o) best_end then best_offer r (of_end o) (Some i)
                     else best_offer r best_end best
    end.
  Fixpoint set_nth {A} (l : list A) (i : nat) (x : A) : list A :=
    match l, i with
    | [], _ => []
    | _ :: r, O => x :: r
    | y :: r, Datatypes.S i' => y :: set_nth r i' x
    end.
  (** multi_agency.py:168-199, Manager.run_auction: the confirmed offer, the position of the
      winner and the agents afterwards. [None] is an exception: a scheduler failed, or no
      agent finishes before infinity. *)
  Definition run_auction (agents : list agent) (wg : nat) (parent_time : Z)
    : option (offer_t * nat * list agent) :=
    match offers_from 0 agents wg parent_time with
    | None => None
    | Some offers =>
        match best_offer offers TIME_INF None with
        | None => None
        | Some b =>
            match nth_error agents b with
            | None => None
            | Some best =>
                match offer b true (ag_timeline best) wg parent_time with
                | None => None
                | Some o =>
                    let agents1 := set_nth agents b (confirm best (of_timeline o) (of_start o) (of_end o)) in
                    let agents2 := map (fun a => if Nat.eqb (ag_name a) (ag_name best) then a
                                                 else update_stat a (of_start o)) agents1 in
                    Some (o, b, agents2)
                end
            end
        end
    end.

  (** multi_agency.py:77-97, ScheduledBlock *)
  Record sblock := Sb { sb_block : nat; sb_start : Z; sb_end : Z; sb_schedule : S; sb_agent : nat }.
  (** multi_agency.py:146, 158: id2sblock; the latest entry for an id counts *)
  Definition find_sblock (l : list sblock) (b : nat) : option sblock :=
    find (fun s => Nat.eqb (sb_block s) b) (rev l).
  (** multi_agency.py:147: the ends of the parents; [None] is KeyError *)
  Fixpoint parent_ends (done : list sblock) (ps : list nat) : option (list Z) :=
    match ps with
    | [] => Some []
    | p :: r => match find_sblock done p, parent_ends done r with
                | Some s, Some l => Some (sb_end s :: l)
                | _, _ => None
                end
    end.
  Definition max_default (l : list Z) : Z :=
    match l with [] => 0%Z | x :: r => fold_left tmax r x end.
  (** multi_agency.py:145-160, the loop over the sorted blocks *)
  Fixpoint manage_loop (bg : block_graph) (order : list nat) (agents : list agent) (done : list sblock)
    : option (list sblock * list agent) :=
    match order with
    | [] => Some (done, agents)
    | b :: rest =>
        match parent_ends done (bg_from bg b) with
        | None => None
        | Some ends =>
            let max_parent_time := tadd (max_default ends) 1 in
            match run_auction agents b max_parent_time with
            | None => None
            | Some (o, i, agents') =>
                if tge (of_start o) max_parent_time then
                  manage_loop bg rest agents' (done ++ [Sb b (of_start o) (of_end o) (of_schedule o) i])
                else None
            end
        end
    end.
  (** multi_agency.py:113-160, Manager.manage_blocks *)
  Definition manage_blocks (agents : list agent) (bg : block_graph) : option (list sblock * list agent) :=
    match agents with
    | [] => None
    | _ =>
        match block_toposort bg with
        | None => None
        | Some order => manage_loop bg order agents []
        end
    end.

  (** block_validation.py:27-38, _check_block_dependencies *)
  Definition check_block_dependencies (bg : block_graph) (l : list sblock) : option bool :=
    fold_left (fun acc s =>
      fold_left (fun acc p =>
        match acc with
        | Some true =>
            match find_sblock l p with
            | None => None
            | Some ps => Some (tle (sb_start ps) (sb_end ps) && tle (sb_end ps) (sb_start s) && tle (sb_start s) (sb_end s))
            end
        | _ => acc
        end) (bg_from bg (sb_block s)) acc) l (Some true).
End Auction.
Arguments Ag {T}. Arguments ag_name {T}. Arguments ag_timeline {T}. Arguments ag_last {T}. Arguments ag_downtime {T}.
Arguments Of {T S}. Arguments of_start {T S}. Arguments of_end {T S}. Arguments of_schedule {T S}. Arguments of_timeline {T S}.
Arguments Sb {S}. Arguments sb_block {S}. Arguments sb_start {S}. Arguments sb_end {S}. Arguments sb_schedule {S}. Arguments sb_agent {S}.
Arguments update_stat {T}. Arguments confirm {T}. Arguments offers_from {T S}. Arguments best_offer {T S}.
Arguments run_auction {T S}. Arguments find_sblock {S}. Arguments parent_ends {S}. Arguments manage_loop {T S}.
Arguments manage_blocks {T S}. Arguments check_block_dependencies {S}.
