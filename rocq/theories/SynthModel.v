(** Model of the generator of synthetic work graphs: generator/pipeline/cluster.py and
    project.py, generator/config/gen_counts.py and worker_req.py, and of
    schemas/requirements.py, schemas/interval.py what they use. Floats are rationals. The ids
    of works are their numbers in the order of creation (the code draws random ids of 128
    bits, which are taken to be different); drawing ids is left out of the stream of random
    numbers, which is arbitrary. *)
From Coq Require Import ZArith QArith Qround List Bool.
From Verif Require Import TimeModel MomentumModel GraphModel TopoModel TraverseModel EnvModel.
Import ListNotations.
Local Open Scope Z_scope.

(** ** Requirements *)
(** requirements.py:50-62, scale_all *)
Definition scale_all (scalar : Q) (r : req) : req :=
  Req (r_kind r) (set_time (py_int (inject_Z (r_volume r) * scalar))) (r_min r) (Z.max (py_round (inject_Z (r_max r) * scalar)) (r_min r)).
(** requirements.py:64-73, scale_volume *)
Definition scale_volume (scalar : Q) (r : req) : req :=
  Req (r_kind r) (set_time (py_int (inject_Z (r_volume r) * scalar))) (r_min r) (r_max r).
(** worker_req.py:5-26 *)
Definition scale_reqs (l : list req) (scalar : Q) : list req := map (scale_all scalar) l.
Definition mul_volume_reqs (l : list req) (scalar : Q) : list req := map (scale_volume scalar) l.
(** worker_req.py:29-53 *)
Definition get_borehole_volume (boreholes : nat) (base : Q * Q) : Q := (fst base + snd base * inject_Z (Z.of_nat boreholes))%Q.
Definition mul_borehole_volume (l : list req) (boreholes : nat) (base : Q * Q) : list req := mul_volume_reqs l (get_borehole_volume boreholes base).

(** The professions *)
Definition driver : nat := 0. Definition fitter : nat := 1. Definition handyman : nat := 2.
Definition electrician : nat := 3. Definition manager : nat := 4. Definition engineer : nat := 5.

(** worker_req.py:63-74 *)
Definition MIN_ROAD : list req := [Req driver 15 3 9; Req manager 5 1 3; Req handyman 30 6 18].
Definition TEMP_ROAD : list req := mul_volume_reqs MIN_ROAD 4.
Definition FINAL_ROAD : list req := mul_volume_reqs MIN_ROAD 10.
(** worker_req.py:81-91 *)
Definition ENGINEERING_PREPARATION_BASE : Q * Q := (44 # 100, 3 # 100)%Q.
Definition ENGINEERING_PREPARATION : list req := [Req driver 900 6 30; Req manager 150 2 6; Req handyman 900 6 30; Req engineer 150 2 6].
(** worker_req.py:98-109 *)
Definition POWER_LINE : list req := [Req driver 120 6 9; Req fitter 120 6 9; Req manager 40 2 6; Req handyman 120 6 9; Req electrician 40 2 6].
(** worker_req.py:115 *)
Definition PIPE_LINE : list req := scale_reqs POWER_LINE 1.
(** worker_req.py:121-132 *)
Definition PIPE_NODE : list req := [Req driver 400 2 6; Req fitter 800 4 8; Req manager 400 2 8; Req handyman 1200 6 12; Req electrician 300 2 6].
(** worker_req.py:139-150 *)
Definition METERING_INSTALL : list req := [Req driver 200 2 6; Req fitter 300 3 9; Req manager 50 1 2; Req handyman 300 4 12; Req engineer 100 2 4].
(** worker_req.py:155-167 *)
Definition KTP_NEP_BASE : Q * Q := (58 # 100, 3 # 100)%Q.
Definition KTP_NEP : list req := [Req driver 200 2 6; Req fitter 300 3 9; Req manager 50 1 2; Req handyman 300 4 12; Req electrician 100 2 4].
(** worker_req.py:173-181 *)
Definition DRAINAGE_TANK_BASE : Q * Q := (3 # 10, 5 # 100)%Q.
Definition DRAINAGE_TANK : list req := [Req driver 400 4 8; Req manager 50 1 2; Req handyman 300 3 9].
(** worker_req.py:186-190 *)
Definition WATER_BLOCK : list req := scale_reqs METERING_INSTALL (11 # 10).
Definition AUTOMATION_BLOCK : list req := scale_reqs METERING_INSTALL (9 # 10).
Definition BLOCK_DOSAGE : list req := scale_reqs METERING_INSTALL 1.
Definition START_FILTER : list req := scale_reqs METERING_INSTALL (105 # 100).
Definition FIREWALL : list req := scale_reqs DRAINAGE_TANK (105 # 100).
(** worker_req.py:197-206 *)
Definition BOREHOLE : list req := [Req driver 200 4 12; Req fitter 150 3 9; Req manager 25 1 3; Req handyman 250 6 9].
(** worker_req.py:213-225 *)
Definition PIPE_NETWORK : list req := [Req driver 60 3 6; Req fitter 60 3 6; Req manager 20 2 4; Req handyman 50 3 6; Req electrician 20 2 4].
Definition POWER_NETWORK : list req := scale_reqs PIPE_NETWORK 1.
(** worker_req.py:230-241 *)
Definition LIGHT_MAST : list req := [Req driver 20 2 4; Req fitter 40 4 8; Req manager 10 2 4; Req handyman 60 3 12; Req electrician 5 1 1].
(** worker_req.py:246-254 *)
Definition HANDING_STAGE_BASE : Q * Q := (66 # 100, 2 # 100)%Q.
Definition HANDING_STAGE : list req := [Req driver 5 1 3; Req manager 5 1 3; Req engineer 10 2 8].

(** ** State *)
(** The names of the works. *)
Inductive work_name := MinRoad | TempRoad | FinalRoad | EngineeringPreparation | PowerLine | HighPowerLine | Pipe | Node | Looping
  | Metering | KtpNep | Drainage | WaterBlock | AutomationBlock | DosageBlock | StartFilters | FirewallTank | Borehole
  | PipeNet | PowerNet | Mast | Handing.
(** A work: its name, its requirements and its volume. *)
Record gwork := GW { gw_name : work_name; gw_reqs : list req; gw_volume : Q }.
(** The works and links made so far and the number of random numbers drawn. *)
Record gstate := GS { gs_works : list gwork; gs_edges : list edge; gs_draw : nat }.
Definition M (A : Type) : Type := gstate -> A * gstate.
Definition ret {A} (a : A) : M A := fun s => (a, s).
Definition bind {A B} (m : M A) (k : A -> M B) : M B := fun s => let '(a, s') := m s in k a s'.
Notation "'let*' x := m 'in' k" := (bind m (fun x => k)) (at level 200, x name, m at level 100, k at level 200).

Section Draws.
  Variable u : nat -> Q.
  (** random.random() *)
  Definition random : M Q := fun s => (u (gs_draw s), GS (gs_works s) (gs_edges s) (S (gs_draw s))).
  (** interval.py:59-67, IntervalUniform.rand_float with random.uniform *)
  Definition rand_float (lo hi : Q) : M Q := let* x := random in ret (lo + (hi - lo) * x)%Q.
  (** interval.py:69-81, IntervalUniform.rand_int (the same clamping as for the Gaussian one); the
      counts are not negative *)
  Definition rand_count (lo hi : Q) : M nat := let* x := rand_float lo hi in ret (Z.to_nat (rand_int x lo hi)).
  (** random.randint *)
  Definition randint (lo hi : nat) : M nat := let* x := random in ret (lo + Z.to_nat (Qfloor (x * inject_Z (Z.of_nat (S hi - lo)))))%nat.

  (** graph.py:50-64 and 105-125, GraphNode(work, parents); cluster.py:25-30 gives lag and type
      (the lag 0.05 is 0 for the schedulers, GraphModel) *)
  Definition node_with (type : edge_type) (name : work_name) (reqs : list req) (volume : Q) (parents : list nat) : M nat :=
    fun s => let n := length (gs_works s) in
             (n, GS (gs_works s ++ [GW name reqs volume]) (gs_edges s ++ map (fun p => Ed p n 0 type) parents) (gs_draw s)).
  Definition node : work_name -> list req -> Q -> list nat -> M nat := node_with FS.
  (** graph.py:105-125, add_parents of one node *)
  Definition add_parent (n p : nat) : M unit := fun s => (tt, GS (gs_works s) (gs_edges s ++ [Ed p n 0 FS]) (gs_draw s)).
  Fixpoint repeat_m {A} (k : nat) (m : M A) : M (list A) :=
    match k with
    | O => ret []
    | S k' => let* x := m in let* l := repeat_m k' m in ret (x :: l)
    end.

  (** ** Clusters *)
  Record roads := Roads { rd_min : nat; rd_temp : nat; rd_final : nat }.
  (** cluster.py:19-37 *)
  Definition get_roads (dist : Q) : M roads :=
    let* a := node MinRoad (scale_reqs MIN_ROAD dist) dist [] in
    let* b := node_with FFS TempRoad (scale_reqs TEMP_ROAD dist) dist [a] in
    let* c := node_with FFS FinalRoad (scale_reqs FINAL_ROAD dist) dist [b] in
    ret (Roads a b c).
  (** cluster.py:50-76 *)
  Definition get_power_lines (parents : list nat) (line : Q) (high : option Q) : M (list nat) :=
    let reqs := scale_reqs POWER_LINE line in
    let* a := node PowerLine reqs line parents in
    let* b := node PowerLine reqs line parents in
    match high with
    | None => ret [a; b]
    | Some h => let* c := node HighPowerLine (scale_reqs POWER_LINE h) h parents in ret [a; b; c]
    end.
  (** cluster.py:88-101, the loop *)
  Fixpoint get_segments (parents : list nat) (dists : list Q) : M (list nat) :=
    match dists with
    | [] => ret []
    | d :: r =>
        let* a := node Node PIPE_NODE 0 parents in
        let* b := node Pipe (scale_reqs PIPE_LINE d) d parents in
        let* l := get_segments parents r in
        ret (a :: b :: l)
    end.
  (** cluster.py:79-110, for the distances [first :: rest] *)
  Definition get_pipe_lines (parents : list nat) (first : Q) (rest : list Q) : M (list nat) :=
    let* a := node Pipe (scale_reqs PIPE_LINE first) first parents in
    let* l := get_segments parents rest in
    let* b := node Looping (scale_reqs PIPE_LINE first) first [a] in
    ret (a :: l ++ [b]).
  (** cluster.py:113-131 *)
  Definition get_equipment_group (parents : list nat) (boreholes : nat) : M (list nat) :=
    let* a := node Metering METERING_INSTALL 0 parents in
    let* b := node KtpNep (mul_borehole_volume KTP_NEP boreholes KTP_NEP_BASE) (get_borehole_volume boreholes KTP_NEP_BASE) parents in
    let* c := node Drainage (mul_borehole_volume DRAINAGE_TANK boreholes DRAINAGE_TANK_BASE) (get_borehole_volume boreholes DRAINAGE_TANK_BASE) parents in
    ret [a; b; c].
  (** cluster.py:134-153 *)
  Definition get_equipment_shared (parents : list nat) : M (list nat) :=
    let* a := node WaterBlock WATER_BLOCK 0 parents in
    let* b := node AutomationBlock AUTOMATION_BLOCK 0 parents in
    let* c := node DosageBlock BLOCK_DOSAGE 0 parents in
    let* d := node StartFilters START_FILTER 0 parents in
    let* e := node FirewallTank FIREWALL 0 parents in
    ret [a; b; c; d; e].
  (** cluster.py:156-163 *)
  Definition get_boreholes (parents : list nat) (boreholes : nat) : M (list nat) := repeat_m boreholes (node Borehole BOREHOLE 0 parents).
  (** cluster.py:170-180, the loop over the pipes: their nodes and the sum of their lengths *)
  Fixpoint get_pipe_net (parents : list nat) (pipes : nat) (sum : Q) : M (list nat * Q) :=
    match pipes with
    | O => ret ([], sum)
    | S k =>
        let* d := rand_float (5 # 100) (3 # 10) in
        let* a := node PipeNet (scale_reqs POWER_NETWORK d) d parents in
        let* l := get_pipe_net parents k (sum + d) in
        ret (a :: fst l, snd l)
    end.
  (** cluster.py:166-194 *)
  Definition get_equipment_general (parents : list nat) (pipes masts : nat) : M (list nat) :=
    let* l := get_pipe_net parents pipes 0 in
    let* p := node PowerNet (scale_reqs POWER_NETWORK (snd l)) (snd l) parents in
    let* ms := repeat_m masts (node Mast LIGHT_MAST 0 parents) in
    ret (fst l ++ p :: ms).
  (** cluster.py:257-269, the loop over the groups of boreholes: the boreholes and the number of
      works made *)
  Fixpoint get_groups (parents shared : list nat) (groups : list nat) : M (list nat * nat) :=
    match groups with
    | [] => ret ([], O)
    | b :: r =>
        let* eq := get_equipment_group parents b in
        let* holes := get_boreholes (eq ++ shared) b in
        let* l := get_groups parents shared r in
        ret (holes ++ fst l, length eq + length holes + snd l)%nat
    end.
  (** The numbers of pipe nodes, pipes of the net, masts and boreholes *)
  Record counts := Counts { ct_pipe_nodes : nat; ct_pipe_net : nat; ct_masts : nat; ct_boreholes : list nat }.
  (** cluster.py:207-275, get_cluster_works: the handing stage, the roads and the number of
      works as counted there *)
  Definition get_cluster_works (c : counts) (given : option roads) : M (nat * roads * nat) :=
    let holes := list_sum (ct_boreholes c) in
    let* start := match given with
                  | Some r => ret (r, None, O)
                  | None => let* d := rand_float 5 15 in let* r := get_roads d in ret (r, Some d, 3%nat)
                  end in
    let '(r, high, n0) := start in
    let* eng := node EngineeringPreparation (mul_borehole_volume ENGINEERING_PREPARATION holes ENGINEERING_PREPARATION_BASE)
                  (get_borehole_volume holes ENGINEERING_PREPARATION_BASE) [rd_min r] in
    let stage := [rd_temp r; eng] in
    let* line := rand_float (1 # 2) 3 in
    let* power := get_power_lines stage line high in
    let* first := rand_float (1 # 2) 3 in
    let* rest := repeat_m (ct_pipe_nodes c) (rand_float (1 # 2) 3) in
    let* pipes := get_pipe_lines stage first rest in
    let* shared := get_equipment_shared stage in
    let* general := get_equipment_general stage (ct_pipe_net c) (ct_masts c) in
    let* groups := get_groups stage shared (ct_boreholes c) in
    let* h := node Handing (mul_borehole_volume HANDING_STAGE holes HANDING_STAGE_BASE) (get_borehole_volume holes HANDING_STAGE_BASE)
                (rd_final r :: power ++ pipes ++ fst groups ++ general) in
    ret (h, r, (n0 + length stage + length power + length pipes + length shared + length general + snd groups)%nat).

  (** ** Projects *)
  (** project.py:19-22, with the intervals of gen_counts.py:26-31 *)
  Definition small_counts : M counts :=
    let* p := rand_count 1 3 in
    let* n := rand_count 2 8 in
    let* m := rand_count 1 3 in
    let* b := rand_count 4 12 in
    ret (Counts p n m [b]).
  (** project.py:36-44, with the intervals of gen_counts.py:33-38 *)
  Definition graph_counts : M counts :=
    let* p := rand_count 1 5 in
    let* n := rand_count 6 20 in
    let* m := rand_count 2 4 in
    let* b := rand_count 8 28 in
    ret (Counts p n m (if (b <=? 14)%nat then [b] else [14; b - 14]%nat)).
  (** project.py:31-66, _get_cluster_graph: the handing stages, the roads and the count *)
  Definition get_cluster_graph (probability : Q) : M (list nat * roads * nat) :=
    let* c := graph_counts in
    let* master := get_cluster_works c None in
    let '(h, r, k) := master in
    let* x := rand_float 0 1 in
    if Qle_bool x probability then
      let* slave := get_cluster_works c (Some r) in
      let '(h', _, k') := slave in
      ret ([h; h'], r, (k + k')%nat)
    else ret ([h], r, k).

  Inductive mode := General | Parallel | Sequential.
  (** project.py:139-162, the work that a new cluster waits for *)
  Definition root_stage (m : mode) (branching : Q) (stages : list (nat * roads)) : M (option nat) :=
    let first := hd_error stages in
    let last_one := nth_error stages (length stages - 1) in
    match m with
    | Parallel => ret (option_map fst first)
    | Sequential => ret (match stages with [] => None | _ => option_map fst last_one end)
    | General =>
        let* x := random in
        let* ind := if Qle_bool x branching && (2 <? length stages)%nat then randint 1 (length stages - 2) else ret (length stages - 1)%nat in
        ret (match stages with [] => None | _ => option_map (fun st => rd_min (snd st)) (nth_error stages ind) end)
    end.
  Fixpoint add_root (root : option nat) (checkpoints : list nat) : M unit :=
    match root, checkpoints with
    | Some p, h :: r => let* _ := add_parent h p in add_root root r
    | _, _ => ret tt
    end.
  (** project.py:101-122, the loop; [None] if the iterations are used up *)
  Fixpoint clusters (fuel : nat) (m : mode) (cluster_counts bottom top : nat) (branching probability : Q)
           (stages : list (nat * roads)) (works : nat) : M (option (list (nat * roads))) :=
    match fuel with
    | O => ret None
    | S fuel' =>
        let probability := if (0 <? cluster_counts)%nat && (Z.of_nat cluster_counts =? Z.of_nat (length stages) - 1) then 0%Q else probability in
        let* cl := get_cluster_graph probability in
        let '(checkpoints, r, count) := cl in
        let* root := root_stage m branching stages in
        let* _ := add_root root checkpoints in
        let stages := stages ++ map (fun h => (h, r)) checkpoints in
        let works := (works + count)%nat in
        if ((0 <? bottom)%nat && (bottom <=? works)%nat) || ((0 <? top)%nat && (top <? count + works)%nat)
           || ((0 <? cluster_counts)%nat && (cluster_counts <=? length stages - 1)%nat)
        then ret (Some stages)
        else clusters fuel' m cluster_counts bottom top branching probability stages works
    end.
End Draws.

(** ** Work graphs *)
(** Volumes are measured in small units (GraphModel): [unit] gives the number of units. *)
Definition unit_of (unit : Q -> Z) (works : list gwork) (n : nat) : work_unit :=
  match nth_error works n with
  | Some w => WU false (gw_reqs w) (unit (gw_volume w))
  | None => WU true [] 0
  end.
Definition graph_of (unit : Q -> Z) (s : gstate) : graph := Gr (gs_edges s) (unit_of unit (gs_works s)).
(** graph.py:352-355, the loop of from_nodes: works without predecessors follow the start. Other
    than in TraverseModel a node may be there twice. *)
Fixpoint follow_start (start : nat) (g : graph) (nodes : list nat) : graph :=
  match nodes with
  | [] => g
  | n :: r =>
      let g' := match parents g n with [] => Gr (g_edges g ++ [Ed start n 0 FS]) (g_unit g) | _ => g end in
      follow_start start g' r
  end.
(** graph.py:351-359, from_nodes; [None] is the ValueError of max() over no nodes *)
Definition from_some_nodes (unit : Q -> Z) (s : gstate) (nodes : list nat) : option (run work_graph) :=
  let start := length (gs_works s) in
  let g1 := follow_start start (graph_of unit s) nodes in
  match filter (fun n => match children g1 n with [] => true | _ => false end) nodes with
  | [] => None
  | ends => Some (make_work_graph (Gr (g_edges g1 ++ map (fun n => Ed n (S start) 0 FS) ends) (g_unit g1)) start (S start))
  end.
Definition road_list (r : roads) : list nat := [rd_min r; rd_temp r; rd_final r].
(** What the generator returns: the work graph, and the works with their names. *)
Record project := Project { pr_graph : run work_graph; pr_works : list gwork }.
Definition project_from (unit : Q -> Z) (s : gstate) (nodes : list nat) : option project :=
  option_map (fun w => Project w (gs_works s)) (from_some_nodes unit s nodes).
(** project.py:10-28, get_small_graph *)
Definition get_small_graph (unit : Q -> Z) (u : nat -> Q) : option project :=
  let '((h, r, _), s) := bind (small_counts u) (fun c => get_cluster_works u c None) (GS [] [] 0) in
  project_from unit s (road_list r ++ [h]).
(** project.py:69-130, get_graph; negative borders are not modelled. [None] is an assertion or
    no more fuel. A single cluster is replaced by a small graph, made with the random numbers
    [u'] of another generator: [rand] is not passed on (project.py:126). *)
Definition get_graph (unit : Q -> Z) (u u' : nat -> Q) (fuel : nat) (m : mode) (cluster_counts bottom top : nat) (branching probability : Q) : option project :=
  if (cluster_counts + bottom + top =? 0)%nat || negb (Qle_bool 0 branching) then None else
  let top := if (0 <? bottom)%nat then O else top in
  let '(result, s) := clusters u fuel m cluster_counts bottom top branching probability [] 0 (GS [] [] 0) in
  match result with
  | None => None
  | Some [_] => get_small_graph unit u'
  | Some stages => project_from unit s (concat (map (fun st => road_list (snd st)) stages) ++ map fst stages)
  end.
