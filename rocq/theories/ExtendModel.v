(** Model of generator/pipeline/extension.py and of SimpleSynthetic.advanced_work_graph
    (generator/base.py:64-78). Strings are strings; the order of the sets, the shuffle and
    the random choices are arguments. *)
From Coq Require Import String ZArith List Bool Decimal DecimalString Arith.
From Verif Require Import TimeModel MomentumModel GraphModel TopoModel TraverseModel.
Import ListNotations.
Local Open Scope string_scope.
Local Open Scope list_scope.

(** requirements.py:32-47, WorkerReq; the volume is a number of hours *)
Record kreq := KR { k_kind : string; k_volume : Z; k_min : Z; k_max : Z; k_name : string }.
(** works.py:13-76, WorkUnit: the name, the requirements and, as one value, the rest *)
Record xunit := XU { x_name : string; x_reqs : list kreq; x_rest : nat }.
(** works.py:48-53: the constructor gives every work the name "dummy"; what is passed to it is
    kept as model_name and display_name *)
Definition new_unit (reqs : list kreq) (rest : nat) : xunit := XU "dummy" reqs rest.
(** A work graph: its works and links, and the unit of each work ([g_unit] is not used). *)
Record xgraph := XG { x_links : work_graph; x_unit : nat -> xunit }.

Definition mem_str (s : string) (l : list string) : bool := existsb (String.eqb s) l.
(** str(i) for a positive number *)
Definition str (i : nat) : string := NilEmpty.string_of_uint (Nat.to_uint i).
(** What a call ends in. [CopyFails]: the deep copy raises. *)
Inductive extended := Extended (x : xgraph) | ZeroDivisionError | KeyError | CopyFails.

Section Extend.
  (** randint(0, k - 1) when the [i]-th requirement of the node is handled *)
  Variable pick : nat -> nat -> nat -> nat.
  (** extension.py:19, suffixes *)
  Definition suffixes (count len : nat) : list string := map (fun i => append " #" (str (i + 1))) (seq 0 (count / len)).
  (** extension.py:18-20, name_to_suffixes; [uniq] is the shuffled list *)
  Definition name_to_suffixes (count : nat) (uniq : list string) : list (string * list string) :=
    let plus_one := firstn (count mod List.length uniq) uniq in
    map (fun name => (name, suffixes count (List.length uniq) ++ if mem_str name plus_one then ["_0"] else [])) uniq.
  Fixpoint lookup (name : string) (d : list (string * list string)) : option (list string) :=
    match d with
    | [] => None
    | (k, v) :: r => if String.eqb name k then Some v else lookup name r
    end.
  Definition choose (options : list string) (node i : nat) : string := nth (pick node i (List.length options)) options "".
  (** extension.py:29-36, _update_resource_names; [None] is KeyError *)
  Fixpoint update_reqs (d : list (string * list string)) (node i : nat) (l : list kreq) : option (list kreq) :=
    match l with
    | [] => Some []
    | r :: rest =>
        match lookup (k_kind r) d, update_reqs d node (S i) rest with
        | Some options, Some rest' =>
            Some (KR (append (k_kind r) (choose options node i)) (k_volume r) (k_min r) (k_max r) (k_name r) :: rest')
        | _, _ => None
        end
    end.
  Definition update_resource_names (d : list (string * list string)) (node : nat) (u : xunit) : option xunit :=
    match update_reqs d node 0 (x_reqs u) with
    | Some l => Some (XU (x_name u) l (x_rest u))
    | None => None
    end.
  (** extension.py:45-49, _update_work_name *)
  Definition update_work_name (d : list (string * list string)) (node : nat) (u : xunit) : option xunit :=
    match lookup (x_name u) d with
    | Some options => Some (XU (append (x_name u) (choose options node 0)) (x_reqs u) (x_rest u))
    | None => Some u
    end.
  (** extension.py:21, the loop over the nodes; the works are changed in place *)
  Fixpoint update_nodes (update : nat -> xunit -> option xunit) (nodes : list nat) (unit : nat -> xunit) : option (nat -> xunit) :=
    match nodes with
    | [] => Some unit
    | n :: r =>
        match update n (unit n) with
        | Some u => update_nodes update r (fun m => if Nat.eqb m n then u else unit m)
        | None => None
        end
    end.
  (** extension.py:10-22, _extend_str_fields. The deep copy writes the graph and reads it back
      (graph.py:431-443); the works come back as they are (JsonTheorems). A negative count
      is as 0. *)
  Definition extend_str_fields (count : nat) (x : xgraph) (uniq : list string)
      (update : list (string * list string) -> nat -> xunit -> option xunit) : extended :=
    if Nat.leb count (List.length uniq) then Extended x
    else match deserialize (serialize (x_links x)) with
         | Restored (Ends w) =>
             if Nat.eqb (List.length uniq) 0 then ZeroDivisionError
             else match update_nodes (update (name_to_suffixes count uniq)) (wg_nodes w) (x_unit x) with
                  | Some unit => Extended (XG w unit)
                  | None => KeyError
                  end
         | _ => CopyFails
         end.
  (** extension.py:24-26, _get_uniq_resource_kinds *)
  Definition uniq_resource_kinds (x : xgraph) : list string :=
    nodup string_dec (concat (map (fun n => map k_kind (x_reqs (x_unit x n))) (wg_nodes (x_links x)))).
  (** extension.py:39-42, _get_uniq_work_names *)
  Definition uniq_work_names (x : xgraph) : list string :=
    let ends := [x_name (x_unit x (wg_start (x_links x))); x_name (x_unit x (wg_finish (x_links x)))] in
    filter (fun s => negb (mem_str s ends)) (nodup string_dec (map (fun n => x_name (x_unit x n)) (wg_nodes (x_links x)))).
  (** The order of the set, then the shuffle. *)
  Variable order : list string -> list string.
  (** extension.py:52-61 *)
  Definition extend_resources (count : nat) (x : xgraph) : extended :=
    extend_str_fields count x (order (uniq_resource_kinds x)) update_resource_names.
  (** extension.py:64-73 *)
  Definition extend_names (count : nat) (x : xgraph) : extended :=
    extend_str_fields count x (order (uniq_work_names x)) update_work_name.
  (** base.py:75-78, advanced_work_graph after the graph is made *)
  Definition advanced (uniq_works uniq_resources : nat) (x : xgraph) : extended :=
    match extend_names uniq_works x with
    | Extended y => extend_resources uniq_resources y
    | e => e
    end.
End Extend.
