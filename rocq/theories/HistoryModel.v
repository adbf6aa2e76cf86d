(** Model of the links found in historical data, sampo/userinput/parser/history.py, and of the
    reading of a table of works with them. *)
From Coq Require Import ZArith QArith List Bool Ascii String.
From Verif Require Import TimeModel MomentumModel GraphModel StableSort TopoModel TraverseModel ParserModel.
Import ListNotations.
Local Open Scope Z_scope.

(** A row of the history: site, name of the work, first and last day. Days are numbers (dates
    as YYYY-MM-DD text compare like days); [None] is an absent value. Sites and names are
    numbers. *)
Record hrow := Hrow { h_site : nat; h_name : nat; h_first : option Z; h_last : option Z }.

(** history.py:35-37, get_delta_between_dates *)
Definition delta (first second : Z) : Z := Z.max (first - second) 1.
(** [a / b] for positive [b] *)
Definition ratio (a b : Z) : Q := a # Z.to_pos b.
(** The counters and lists of shares (percent_lags) that are gathered for a pair of works. The
    lists of lags in days are never used and left out. *)
Record stats := Stats { fs12 : Z; fs21 : Z; ss12 : Z; ss12_lags : list Q; ss21 : Z; ss21_lags : list Q;
                        ffs12 : Z; ffs12_lags : list Q; ffs21 : Z; ffs21_lags : list Q }.
Definition no_stats : stats := Stats 0 0 0 [] 0 [] 0 [] 0 [].
Definition add_stats (a b : stats) : stats :=
  Stats (fs12 a + fs12 b) (fs21 a + fs21 b) (ss12 a + ss12 b) (ss12_lags a ++ ss12_lags b)
        (ss21 a + ss21 b) (ss21_lags a ++ ss21_lags b) (ffs12 a + ffs12 b) (ffs12_lags a ++ ffs12_lags b)
        (ffs21 a + ffs21 b) (ffs21_lags a ++ ffs21_lags b).
(** history.py:44-103, gather_links_types_statistics. The branches for a difference of 0 days
    cannot be reached. *)
Definition gather (s1 f1 s2 f2 : Z) : stats :=
  add_stats
    (if (s1 =? s2) && (f1 =? f2) then Stats 0 0 0 [] 0 [] 1 [1 # 100] 0 [] else no_stats)
    (if f2 <=? s1 then Stats 0 1 0 [] 0 [] 0 [] 0 []
     else if f1 <=? s2 then Stats 1 0 0 [] 0 [] 0 [] 0 []
     else if s1 <=? s2 then
       if f1 <=? f2 then Stats 0 0 0 [] 0 [] 1 [ratio (delta s2 s1) (delta f1 s1)] 0 []
       else Stats 0 0 1 [ratio (delta s2 s1) (delta f1 s1)] 0 [] 0 [] 0 []
     else if f2 <=? f1 then Stats 0 0 0 [] 0 [] 0 [] 1 [ratio (delta s1 s2) (delta f2 s2)]
     else Stats 0 0 0 [] 1 [ratio (delta s1 s2) (delta f2 s2)] 0 [] 0 []).

(** history.py:146-152: the rows of a work at a site, sorted by first and last day, absent
    values last (a stable sort by several keys) *)
Definition day (d : option Z) : Z := match d with Some x => x | None => 0 end.
Definition absent (d : option Z) : Z := match d with Some _ => 0 | None => 1 end.
Definition performed (history : list hrow) (site name : nat) : list hrow :=
  sort_by (fun r => absent (h_first r)) (sort_by (fun r => day (h_first r))
    (sort_by (fun r => absent (h_last r)) (sort_by (fun r => day (h_last r))
      (filter (fun r => Nat.eqb (h_site r) site && Nat.eqb (h_name r) name) history)))).
(** history.py:154-159: the k-th performance of the one with the k-th of the other, left out
    where a day is absent *)
Fixpoint together (l1 l2 : list hrow) : list (Z * Z * Z * Z) :=
  match l1, l2 with
  | a :: r1, b :: r2 =>
      match h_first a, h_last a, h_first b, h_last b with
      | Some s1, Some f1, Some s2, Some f2 => (s1, f1, s2, f2) :: together r1 r2
      | _, _, _, _ => together r1 r2
      end
  | _, _ => []
  end.
(** history.py:119 and 143-145: the sites, each once. (If one of the works is missing at a site
    there is nothing to pair. The order of the sites does not matter to what is computed from
    the lists, in exact arithmetic.) *)
Definition occurrences (history : list hrow) (name1 name2 : nat) : list (Z * Z * Z * Z) :=
  flat_map (fun site => together (performed history site name1) (performed history site name2))
           (nodup Nat.eq_dec (map h_site history)).
(** history.py:160-181 *)
Definition gather_all (l : list (Z * Z * Z * Z)) : stats :=
  fold_left (fun a o => let '(s1, f1, s2, f2) := o in add_stats a (gather s1 f1 s2 f2)) l no_stats.

(** history.py:40-41, find_min_without_outliers, in exact arithmetic: the least number that is
    not more than three standard deviations below the mean, rounded to hundredths (half to
    even). min() of no numbers is a ValueError. *)
Definition qsum (l : list Q) : Q := fold_right Qplus 0%Q l.
Definition mean (l : list Q) : Q := (qsum l / inject_Z (Z.of_nat (List.length l)))%Q.
Definition variance (l : list Q) : Q := mean (map (fun x => (x - mean l) * (x - mean l))%Q l).
Definition inlier (l : list Q) (x : Q) : bool :=
  Qle_bool (mean l) x || Qle_bool ((mean l - x) * (mean l - x))%Q (9 * variance l)%Q.
Definition qmin (x y : Q) : Q := if Qle_bool x y then x else y.
Definition round2 (x : Q) : Q := round_div (100 * Qnum x) (Zpos (Qden x)) # 100.
Definition find_min_without_outliers (l : list Q) : res Q :=
  match filter (inlier l) l with
  | [] => Err ValueErr
  | x :: r => Ok (round2 (fold_left qmin r x))
  end.

(** history.py:183-225: whether the first work precedes, the type and the lag *)
Definition decide (s : stats) : res (option (bool * edge_type * Q)) :=
  let one := fs21 s + ffs21 s + ss21 s <=? fs12 s + ffs12 s + ss12 s in
  let fs := if one then fs12 s else fs21 s in
  let ffs := if one then ffs12 s else ffs21 s in
  let ss := if one then ss12 s else ss21 s in
  let ffs_lags := if one then ffs12_lags s else ffs21_lags s in
  let ss_lags := if one then ss12_lags s else ss21_lags s in
  if Z.max fs (Z.max ss ffs) =? 0 then Ok None
  else if ss <? fs then
    if 0 <? ffs then bind (find_min_without_outliers ffs_lags) (fun q => Ok (Some (one, FFS, q)))
    else Ok (Some (one, FS, 0%Q))
  else if ffs <? ss then bind (find_min_without_outliers ss_lags) (fun q => Ok (Some (one, SS, q)))
  else bind (find_min_without_outliers ffs_lags) (fun q => Ok (Some (one, FFS, q))).

(** A link found in the history: the work it is for, its predecessor, type, lag and count. *)
Record hlink := Hlink { hl_work : str; hl_pred : str; hl_type : edge_type; hl_lag : Q; hl_count : Z }.
(** history.py:12-32, get_all_connections: the pairs of works, each once *)
Fixpoint pairs {A} (l : list A) : list (A * A) :=
  match l with
  | [] => []
  | x :: r => map (pair x) r ++ pairs r
  end.
Section History.
  Variable history : list hrow.
  (** the granular name of a work *)
  Variable name_of : str -> nat.
  (** history.py:129-225, for one pair of works *)
  Definition pair_links (p : str * str) : res (list hlink) :=
    let (w1, w2) := p in
    if Nat.eqb (name_of w1) (name_of w2) then Ok []
    else
      let l := occurrences history (name_of w1) (name_of w2) in
      bind (decide (gather_all l)) (fun d =>
      match d with
      | None => Ok []
      | Some (true, t, q) => Ok [Hlink w2 w1 t q (Z.of_nat (List.length l))]
      | Some (false, t, q) => Ok [Hlink w1 w2 t q (Z.of_nat (List.length l))]
      end).
  (** history.py:106-227, get_all_seq_statistic; the dictionary as the list of its entries *)
  Definition get_all_seq_statistic (works : list str) : res (list hlink) :=
    bind (map_res pair_links (pairs works)) (fun l => Ok (List.concat l)).

  (** ** set_connections_info *)
  Definition lists := (list str * list edge_type * list lag * list Z)%type.
  (** history.py:294-297: what the history says of a work *)
  Definition history_lists (info : list hlink) : lists :=
    match info with
    | [] => ([NONE_ELEM], [FS], [Lag 1], [INF])
    | _ => (map hl_pred info, map hl_type info, map (fun h => Lag (hl_lag h)) info, map hl_count info)
    end.
  (** history.py:256-264, append_new_connections *)
  Fixpoint append_new (works : list str) (news : list str) (types : list edge_type) (lags : list lag) (counts : list Z)
    (old : lists) : lists :=
    match news, types, lags, counts with
    | p :: ps, t :: ts, l :: ls, c :: cs =>
        let '(a, b, d, e) := old in
        append_new works ps ts ls cs
          (if negb (str_mem p a) && negb (str_eqb p NONE_ELEM) && str_mem p works
           then (a ++ [p], b ++ [t], d ++ [l], e ++ [c]) else old)
    | _, _, _, _ => old
    end.
  (** l[i] = x; an IndexError beyond the end *)
  Fixpoint set_nth {A} (i : nat) (x : A) (l : list A) : res (list A) :=
    match l, i with
    | [], _ => Err IndexErr
    | _ :: r, O => Ok (x :: r)
    | y :: r, S i' => bind (set_nth i' x r) (fun r' => Ok (y :: r'))
    end.
  (** history.py:246-254, update_connections *)
  Fixpoint update (i : nat) (ids : list str) (found : str -> option (edge_type * lag * Z))
    (types : list edge_type) (lags : list lag) (counts : list Z) : res (list edge_type * list lag * list Z) :=
    match ids with
    | [] => Ok (types, lags, counts)
    | p :: ps =>
        match found p with
        | None => update (S i) ps found types lags counts
        | Some (t, l, c) =>
            bind (set_nth i t types) (fun types' => bind (set_nth i l lags) (fun lags' =>
            bind (set_nth i c counts) (fun counts' => update (S i) ps found types' lags' counts')))
        end
    end.
  (** the entry at the first position of the id *)
  Fixpoint lookup (ids : list str) (types : list edge_type) (lags : list lag) (counts : list Z) (p : str)
    : option (edge_type * lag * Z) :=
    match ids, types, lags, counts with
    | x :: r, t :: ts, l :: ls, c :: cs => if str_eqb x p then Some (t, l, c) else lookup r ts ls cs p
    | _, _, _, _ => None
    end.
  (** history.py:318-321: the shorter lists are filled up; if there are more types than
      predecessors the loop never ends *)
  Definition fill (q : lists) : res lists :=
    let '(a, b, d, e) := q in
    if Nat.ltb (List.length a) (List.length b) then Err Endless
    else let k := (List.length a - List.length b)%nat in
         Ok (a, b ++ repeat FS k, d ++ repeat (Lag 1) k, e ++ repeat 0 k).
  (** history.py:291-323, for one work. The type '-1' of the code is FS here, as it becomes
      at the end (history.py:325-327). *)
  Definition connect (all_connections change_connections_info : bool) (works : list str) (info : list hlink) (r : prow)
    : res prow :=
    let '(ids, types, lags, counts) := history_lists info in
    bind
      (if negb all_connections then
         let e0 := repeat INF (List.length (p_lags r)) in
         bind (if change_connections_info then update 0 (p_preds r) (lookup ids types lags counts) (p_types r) (p_lags r) e0
               else Ok (p_types r, p_lags r, e0)) (fun q =>
         let '(b, d, e) := q in Ok (append_new works ids types lags counts (p_preds r, b, d, e)))
       else if match p_preds r with [x] => str_eqb x NONE_ELEM | _ => false end then Ok (ids, types, lags, counts)
       else
         (** history.py:308-316: the entries of the history for the predecessors of the row, in
             the order of the history *)
         Ok match filter (fun h => str_mem (hl_pred h) (p_preds r)) info with
            | [] => (p_preds r, [FS], [Lag 1], [INF])
            | k => (p_preds r, map hl_type k, map (fun h => Lag (hl_lag h)) k, map hl_count k)
            end)
      (fun q => bind (fill q) (fun q =>
       let '(a, b, d, e) := q in Ok (Prow (p_id r) a b d e (p_volume r) (p_reqs r)))).
  (** history.py:230-329, set_connections_info *)
  Definition set_connections_info (all_connections change_connections_info : bool) (rows : list prow) : res (list prow) :=
    if all_connections && negb change_connections_info then Ok (map no_changes rows)
    else
      let works := map p_id rows in
      bind (get_all_seq_statistic works) (fun links =>
      map_res (fun r => connect all_connections change_connections_info works
                          (filter (fun h => str_eqb (hl_work h) (p_id r)) links) r) rows).

  (** csv_parser.py:78-93 and 122-137: read_graph_info and then work_graph *)
  Definition parse_with_history (to_float : str -> res Q)
    (topological_sort : list nat -> list (nat * nat) -> option (list nat)) (set_order : list nat -> list nat)
    (kinds : list nat) (find_work_resources : str -> Z -> list req) (start finish : nat)
    (all_connections change_connections_info : bool) (table : list cells) : res (run TraverseModel.work_graph) :=
    bind (map_res (preprocess to_float) table) (fun rows =>
    bind (set_connections_info all_connections change_connections_info rows) (fun rows' =>
    bind (break_loops rows')
         (work_graph topological_sort set_order kinds find_work_resources start finish))).
End History.
