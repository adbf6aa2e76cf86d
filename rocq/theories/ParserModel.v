(** Model of the reading of a table of works and of the making of a work graph from it
    (sampo/userinput/parser/general_build.py:116-276, csv_parser.py:78-93 and 122-137). *)
From Coq Require Import ZArith QArith List Bool Ascii String.
From Verif Require Import TimeModel MomentumModel GraphModel StableSort TopoModel TraverseModel.
From Verif Require LoopModel Digraph.
Import ListNotations.
Local Open Scope Z_scope.

(** Exceptions, and a loop that never ends. *)
Inductive err := ValueErr | OverflowErr | IndexErr | KeyErr | UnfeasibleErr | Endless.
Inductive res (A : Type) := Ok (a : A) | Err (e : err).
Arguments Ok {A}. Arguments Err {A}.
Definition bind {A B} (x : res A) (f : A -> res B) : res B := match x with Ok a => f a | Err e => Err e end.
Fixpoint map_res {A B} (f : A -> res B) (l : list A) : res (list B) :=
  match l with
  | [] => Ok []
  | x :: r => bind (f x) (fun y => bind (map_res f r) (fun ys => Ok (y :: ys)))
  end.

(** ** Strings *)
(** Simplification: ASCII only (str.isdigit also accepts other digits). *)
Definition str := list ascii.
Definition lit (s : string) : str := list_ascii_of_string s.
Definition str_eqb (a b : str) : bool := if list_eq_dec ascii_dec a b then true else false.
Definition str_mem (x : str) (l : list str) : bool := existsb (str_eqb x) l.
(** general_build.py:21, NONE_ELEM *)
Definition NONE_ELEM : str := lit "-1".
(** s.split(',') *)
Fixpoint split_go (s cur : str) : list str :=
  match s with
  | [] => [rev cur]
  | c :: r => if ascii_dec c "," then rev cur :: split_go r [] else split_go r (c :: cur)
  end.
Definition split (s : str) : list str := split_go s [].

(** ** Numbers in text *)
Definition digit_value (c : ascii) : Z := Z.of_N (N_of_ascii c) - 48.
Definition is_digit (c : ascii) : bool := (0 <=? digit_value c) && (digit_value c <=? 9).
(** s.isdigit() *)
Definition isdigit (s : str) : bool := match s with [] => false | _ => forallb is_digit s end.
(** s.replace('.', '', 1) *)
Fixpoint drop_dot (s : str) : str :=
  match s with
  | [] => []
  | c :: r => if ascii_dec c "." then r else c :: drop_dot r
  end.
(** the number of characters after the first point *)
Fixpoint places (s : str) : Z :=
  match s with
  | [] => 0
  | c :: r => if ascii_dec c "." then Z.of_nat (List.length r) else places r
  end.
Definition value (s : str) : Z := fold_left (fun n c => 10 * n + digit_value c) s 0.
(** the nearest integer to a/b, the even one of two *)
Definition round_div (a b : Z) : Z :=
  let q := a / b in let r := a mod b in
  if 2 * r <? b then q else if b <? 2 * r then q + 1 else if Z.even q then q else q + 1.
(** int(float(s)) where s denotes n / 10^k, n >= 0: the nearest double, of 53 significant
    bits, truncated; int() of an infinite number is an OverflowError. *)
Definition int_float (n k : Z) : res Z :=
  if n =? 0 then Ok 0 else
  let d := 10 ^ k in
  let mant e := if 0 <=? e then round_div n (d * 2 ^ e) else round_div (n * 2 ^ (- e)) d in
  let e0 := Z.log2 n - Z.log2 d - 53 in
  let below := if 0 <=? e0 then n <? d * 2 ^ e0 * 2 ^ 53 else n * 2 ^ (- e0) <? d * 2 ^ 53 in
  let e := if below then e0 else e0 + 1 in
  let v := if 0 <=? e then mant e * 2 ^ e else mant e / 2 ^ (- e) in
  if 2 ^ 1024 <=? v then Err OverflowErr else Ok v.
(** str(n) for n >= 0; at most [fuel] digits *)
Definition digit (n : Z) : ascii := ascii_of_N (Z.to_N (n + 48)).
Fixpoint show_go (fuel : nat) (n : Z) (acc : str) : str :=
  match fuel with
  | O => acc
  | S f => if n <? 10 then digit n :: acc else show_go f (n / 10) (digit (n mod 10) :: acc)
  end.
Definition show (n : Z) : str := show_go (S (Z.to_nat (Z.log2 n))) n [].
(** general_build.py:159-162, normalize_if_number *)
Definition normalize_if_number (s : str) : res str :=
  if isdigit (drop_dot s) then bind (int_float (value (drop_dot s)) (places s)) (fun n => Ok (show n))
  else Ok s.

(** ** Cells *)
(** general_build.py:149-154, fix_df_column_with_arrays, for one cell; [None] is an absent
    value (NaN). *)
Definition fix_cell {A} (cast : str -> res A) (none_elem : A) (cell : option str) : res (list A) :=
  match cell with
  | None => Ok [none_elem]
  | Some s =>
      if str_eqb s (lit "nan") then Ok [none_elem]
      else map_res (fun e => if str_eqb e [] || str_eqb e (lit "nan") then Ok none_elem else cast e) (split s)
  end.
(** schemas/graph.py:20-28: EdgeType(s); an unknown value is a ValueError *)
Definition edge_type_of (s : str) : res edge_type :=
  if str_eqb s (lit "IFS") then Ok IFS
  else if str_eqb s (lit "FFS") then Ok FFS
  else if str_eqb s (lit "SS") then Ok SS
  else if str_eqb s (lit "FF") then Ok FF
  else if str_eqb s (lit "FS") then Ok FS
  else Err ValueErr.
(** A lag is a number or, where the table has none, the text '-1'. *)
Inductive lag := Lag (q : Q) | NoLag.
(** schemas/graph.py:290: int(edge.lag), the only use the schedulers make of a lag. int()
    truncates a number and reads the text '-1' as a number. *)
Definition int_lag (l : lag) : Z :=
  match l with
  | Lag q => Z.quot (Qnum q) (Zpos (Qden q))
  | NoLag => -1
  end.
(** The largest int64 (general_build.py:199, history.py:268). *)
Definition INF : Z := 2 ^ 63 - 1.

(** A row as the user gives it. The columns with the requirements are [None] where the table
    has none of them: least, greatest number and volume of work per kind of worker. Names,
    groups, priorities and zones are left out; kinds of workers are numbers. *)
Record cells := Cells { c_id : str; c_preds : option str; c_types : option str; c_lags : option str;
                        c_volume : Z; c_reqs : option (list (nat * Z) * list (nat * Z) * list (nat * Z)) }.
(** A row after preprocessing: four lists, not always of the same length. *)
Record prow := Prow { p_id : str; p_preds : list str; p_types : list edge_type; p_lags : list lag; p_counts : list Z;
                      p_volume : Z; p_reqs : option (list (nat * Z) * list (nat * Z) * list (nat * Z)) }.

Section Parse.
  (** float(s) for the text of a lag; not modelled further *)
  Variable to_float : str -> res Q.
  (** general_build.py:157-201, preprocess_graph_df, for one row. Ids are not normalized. *)
  Definition preprocess (c : cells) : res prow :=
    bind (fix_cell normalize_if_number NONE_ELEM (c_preds c)) (fun preds =>
    bind (fix_cell edge_type_of FS (c_types c)) (fun types =>
    bind (fix_cell (fun s => bind (to_float s) (fun q => Ok (Lag q))) NoLag (c_lags c)) (fun lags =>
    Ok (Prow (c_id c) preds types lags (repeat INF (List.length lags)) (c_volume c) (c_reqs c))))).
  (** history.py:271-277: with all_connections and without change_connections_info the links
      of the table are taken as they are. *)
  Definition no_changes (r : prow) : prow :=
    Prow (p_id r) (p_preds r) (p_types r) (p_lags r) (repeat INF (List.length (p_preds r))) (p_volume r) (p_reqs r).

  (** ** Loops *)
  (** The number of a work: its first row in the table; works that are not in the table have
      the number after the last one (they are never compared with each other). *)
  Fixpoint num (names : list str) (s : str) : nat :=
    match names with
    | [] => 0
    | x :: r => if str_eqb x s then 0 else S (num r s)
    end.
  Definition pred_num (names : list str) (s : str) : option nat :=
    if str_eqb s NONE_ELEM then None else Some (num names s).
  (** general_build.py:125-130: zip stops at the end of the shortest list *)
  Fixpoint zip_links (names : list str) (preds : list str) (types : list edge_type) (lags : list lag) (counts : list Z)
    : list (LoopModel.link unit) :=
    match preds, types, lags, counts with
    | p :: ps, _ :: ts, _ :: ls, c :: cs => LoopModel.Link (pred_num names p) tt (Some c) :: zip_links names ps ts ls cs
    | _, _, _, _ => []
    end.
  Definition loop_row (names : list str) (r : prow) : LoopModel.row unit :=
    (num names (p_id r), zip_links names (p_preds r) (p_types r) (p_lags r) (p_counts r)).
  (** general_build.py:133-145: deletes the same position of each of the lists; deleting
      beyond the end of a list is an IndexError *)
  Fixpoint delete_links (stays : str -> bool) (preds : list str) (types : list edge_type) (lags : list lag) (counts : list Z)
    : res (list str * list edge_type * list lag * list Z) :=
    match preds with
    | [] => Ok ([], types, lags, counts)
    | p :: ps =>
        if stays p then
          bind (delete_links stays ps (tl types) (tl lags) (tl counts)) (fun q =>
          let '(a, b, c, d) := q in Ok (p :: a, firstn 1 types ++ b, firstn 1 lags ++ c, firstn 1 counts ++ d))
        else match types, lags, counts with
             | _ :: ts, _ :: ls, _ :: cs => delete_links stays ps ts ls cs
             | _, _, _ => Err IndexErr
             end
    end.
  (** general_build.py:116-146, break_loops_in_input_graph *)
  Definition break_loops (rows : list prow) : res (list prow) :=
    let names := map p_id rows in
    match LoopModel.eliminate_cycles (LoopModel.input_graph (map (loop_row names) rows)) with
    | None => Err Endless
    | Some g =>
        map_res (fun r =>
          let stays p := match pred_num names p with
                         | None => true
                         | Some k => match LoopModel.ids_get g k with
                                     | None => true
                                     | Some vs => mem (num names (p_id r)) vs
                                     end
                         end in
          bind (delete_links stays (p_preds r) (p_types r) (p_lags r) (p_counts r)) (fun q =>
          let '(a, b, c, d) := q in Ok (Prow (p_id r) a b c d (p_volume r) (p_reqs r)))) rows
    end.

  (** ** The graph *)
  (** general_build.py:204-220, add_graph_info, for one row: the links from the works of the
      table; a list that is too short is an IndexError. *)
  Fixpoint known_links (names : list str) (preds : list str) (types : list edge_type) (lags : list lag)
    : res (list (str * edge_type * lag)) :=
    match preds with
    | [] => Ok []
    | p :: ps =>
        if str_mem p names then
          match types, lags with
          | t :: ts, l :: ls => bind (known_links names ps ts ls) (fun r => Ok ((p, t, l) :: r))
          | _, _ => Err IndexErr
          end
        else known_links names ps (tl types) (tl lags)
    end.
  (** networkx.topological_sort over the given nodes and edges; [None]: there is a cycle *)
  Variable topological_sort : list nat -> list (nat * nat) -> option (list nat).
  (** the order in which a set of ids is iterated *)
  Variable set_order : list nat -> list nat.
  (** csv_parser.py:126-131: the kinds of workers that the estimator names for some work *)
  Variable kinds : list nat.
  (** the requirements that the estimator finds for a work of the given volume *)
  Variable find_work_resources : str -> Z -> list req.
  (** the ids of the service nodes *)
  Variables start finish : nat.

  Fixpoint dict_get (d : list (nat * Z)) (k : nat) : option Z :=
    match d with
    | [] => None
    | (k', v) :: r => if Nat.eqb k' k then Some v else dict_get r k
    end.
  (** general_build.py:247-254: kinds that are not in both dictionaries are passed over, so
      are ranges that are empty or start at 0; a volume that is not given is a KeyError. *)
  Fixpoint given_reqs (ks : list nat) (least greatest volume : list (nat * Z)) : res (list req) :=
    match ks with
    | [] => Ok []
    | k :: r =>
        match dict_get least k, dict_get greatest k with
        | Some lo, Some hi =>
            if (0 <? lo) && (lo <=? hi) then
              match dict_get volume k with
              | None => Err KeyErr
              | Some v => bind (given_reqs r least greatest volume) (fun q => Ok (Req k v lo hi :: q))
              end
            else given_reqs r least greatest volume
        | _, _ => given_reqs r least greatest volume
        end
    end.
  Definition reqs_of (r : prow) : res (list req) :=
    match p_reqs r with
    | Some (least, greatest, volume) => given_reqs kinds least greatest volume
    | None => Ok (find_work_resources (p_id r) (p_volume r))
    end.
  (** general_build.py:255-273: the node of a row. A work without requirements is a service
      unit. *)
  Definition node_of (names : list str) (r : prow) : res node_info :=
    bind (known_links names (p_preds r) (p_types r) (p_lags r)) (fun edges =>
    bind (reqs_of r) (fun reqs =>
    Ok (NI (num names (p_id r)) (WU (match reqs with [] => true | _ => false end) reqs (p_volume r))
           (map (fun e => (num names (fst (fst e)), int_lag (snd e), snd (fst e))) edges)))).
  (** csv_parser.py:122-137 with general_build.py:204-276: work_graph. Simplification: the
      nodes are computed before they are sorted. *)
  Definition work_graph (rows : list prow) : res (run TraverseModel.work_graph) :=
    let names := map p_id rows in
    bind (map_res (node_of names) rows) (fun nodes =>
    (** general_build.py:223-240, topsort_graph_df *)
    match topological_sort (map ni_id nodes)
            (flat_map (fun i => map (fun p => (fst (fst p), ni_id i)) (ni_parents i)) nodes) with
    | None => Err UnfeasibleErr
    | Some order =>
        let sorted := sort_by (fun i => Z.of_nat (Digraph.pos order (ni_id i))) nodes in
        (** general_build.py:271-276 *)
        match rebuild sorted [] (Gr [] (fun _ => WU true [] 0)) with
        | None => Err KeyErr
        | Some (_, g) =>
            match from_nodes g (set_order (map ni_id nodes)) start finish with
            | None => Err ValueErr
            | Some w => Ok w
            end
        end
    end).

  (** csv_parser.py:78-93 and 122-137: read_graph_info with all_connections=True and then
      work_graph *)
  Definition parse (table : list cells) : res (run TraverseModel.work_graph) :=
    bind (map_res preprocess table) (fun rows =>
    bind (break_loops (map no_changes rows)) work_graph).
End Parse.
