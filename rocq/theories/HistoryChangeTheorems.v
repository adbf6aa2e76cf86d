(** C105: the graph made from a table of works and historical data that change what the table
    says of its links. *)
From Coq Require Import ZArith QArith List Bool Ascii String Lia Arith Relations Permutation Sorted.
From Verif Require Import TimeModel MomentumModel GraphModel ScheduleSpec Digraph StableSort TopoModel TopoProofs
  TraverseModel TraverseProofs TraverseTheorems ParserModel ParserProofs ParserGraph ParserTheorems
  HistoryModel HistorySpec HistoryProofs HistoryTheorems HistoryGraphTheorems.
From Verif Require LoopModel LoopTheorems.
Import ListNotations.
Local Open Scope Z_scope.

(** ** Specification *)
(** What is said of a link to a work: its predecessor, type and lag. *)
Record said := Said { sd_pred : str; sd_type : edge_type; sd_lag : Q }.
Definition as_told (h : hlink) : said := Said (hl_pred h) (hl_type h) (hl_lag h).
(** The link of the history to a work from one of its predecessors. *)
Definition told (links : list hlink) (w : work) (p : str) : option hlink :=
  find (fun h => str_eqb (hl_work h) (wk_id w) && str_eqb (hl_pred h) p) links.
(** With change_connections_info on and all_connections off: the links of the row, with type and
    lag of the history where it has them, and then the links that only the history has. *)
Definition changed (value : str -> Q) (links : list hlink) (w : work) : list said :=
  map (fun l => match told links w (lk_pred l) with
                | Some h => Said (lk_pred l) (hl_type h) (hl_lag h)
                | None => Said (lk_pred l) (lk_type l) (value (lk_lag l))
                end) (wk_links w) ++ map as_told (new_links links w).
(** With both on: if the row has no links, those of the history; otherwise the predecessors of
    the row, and the types and lags of the history for these predecessors in the order of the
    history; FS and 1 where there are no more. *)
Definition known (links : list hlink) (w : work) : list hlink :=
  filter (fun h => str_eqb (hl_work h) (wk_id w) && str_mem (hl_pred h) (map lk_pred (wk_links w))) links.
Fixpoint in_turn (preds : list str) (told : list hlink) : list said :=
  match preds, told with
  | [], _ => []
  | p :: ps, h :: hs => Said p (hl_type h) (hl_lag h) :: in_turn ps hs
  | p :: ps, [] => Said p FS 1 :: in_turn ps []
  end.
Definition rewritten (links : list hlink) (w : work) : list said :=
  match wk_links w with
  | [] => map as_told (filter (fun h => str_eqb (hl_work h) (wk_id w)) links)
  | ls => in_turn (map lk_pred ls) (known links w)
  end.
(** The work of a row follows another work of the table. *)
Definition said_before (says : work -> list said) (table : list work) (a b : str) : Prop :=
  In a (map wk_id table) /\ exists w s, In w table /\ In s (says w) /\ wk_id w = b /\ sd_pred s = a.
Definition said_edges (names : list str) (keep : str -> str -> bool) (says : work -> list said) (w : work) : list edge :=
  map (fun s => Ed (num names (sd_pred s)) (num names (wk_id w)) (Z.quot (Qnum (sd_lag s)) (Zpos (Qden (sd_lag s)))) (sd_type s))
      (filter (fun s => str_mem (sd_pred s) names && keep (sd_pred s) (wk_id w)) (says w)).
(** A graph with the works of the table between a start and a finish, one edge for each link
    between works of the table that [keep] keeps, the start before the works without other
    predecessors and the finish after those without other successors. *)
Definition graph_says (says : work -> list said) (keep : str -> str -> bool) (table : list work) (kinds : list nat)
  (find_work_resources : str -> Z -> list req) (start finish : nat) (w : TraverseModel.work_graph) : Prop :=
  let names := map wk_id table in
  wg_start w = start /\ wg_finish w = finish
  /\ exists own es ef middle,
    wg_nodes w = start :: middle ++ [finish] /\ Permutation middle (map (num names) names)
    /\ topological (linked (wg_graph w)) (wg_nodes w)
    /\ g_edges (wg_graph w) = own ++ es ++ ef
    /\ Permutation own (flat_map (said_edges names keep says) table)
    /\ (forall e, In e es <-> exists x, In x names /\ e = Ed start (num names x) 0 FS
          /\ forall e', In e' own -> is_dependency (e_type e') = true -> e_to e' <> num names x)
    /\ (forall e, In e ef <-> exists x, In x names /\ e = Ed (num names x) finish 0 FS
          /\ forall e', In e' own -> is_dependency (e_type e') = true -> e_from e' <> num names x)
    /\ (forall x, In x table -> let u := g_unit (wg_graph w) (num names (wk_id x)) in
          u_volume u = wk_volume x /\ (u_service u = true <-> u_reqs u = [])
          /\ reqs_given kinds x (u_reqs u)
          /\ (wk_reqs x = None -> u_reqs u = find_work_resources (wk_id x) (wk_volume x))).

(** ** Proofs *)
Definition said_of (q : quad) : said := Said (q_pred q) (q_type q) (match q_lag q with Lag x => x | NoLag => 0%Q end).
(** The rows after the history was applied say what [says] states. *)
Definition rows_say (says : work -> list said) (conv : work -> zrow) (w : work) : Prop :=
  z_id (conv w) = wk_id w /\ z_volume (conv w) = wk_volume w /\ z_reqs (conv w) = wk_reqs w
  /\ exists nones qs, z_links (conv w) = nones ++ qs /\ (forall q, In q nones -> q_pred q = NONE_ELEM)
       /\ map said_of qs = says w /\ forall q, In q qs -> exists x, q_lag q = Lag x.
Section Rows.
  Variable (to_float : str -> res Q) (all change : bool) (says : work -> list said) (conv : work -> zrow) (table : list work) (links : list hlink).
  Let names := map wk_id table.
  Lemma rows_all : (forall w, In w table -> exists r, preprocess to_float (written w) = Ok r /\ p_id r = wk_id w /\
      connect all change names (filter (fun h => str_eqb (hl_work h) (p_id r)) links) r = Ok (unz (conv w))) ->
    exists rows, map_res (preprocess to_float) (map written table) = Ok rows /\ map p_id rows = names /\
      map_res (fun r => connect all change names (filter (fun h => str_eqb (hl_work h) (p_id r)) links) r) rows
      = Ok (map unz (map conv table)).
  Proof.
    intros C.
    assert (G : forall t, incl t table -> exists rows, map_res (preprocess to_float) (map written t) = Ok rows /\ map p_id rows = map wk_id t /\
      map_res (fun r => connect all change names (filter (fun h => str_eqb (hl_work h) (p_id r)) links) r) rows
      = Ok (map unz (map conv t))); [|apply G, incl_refl].
    induction t as [|x t IH]; intros Hi; [exists []; auto|].
    destruct IH as (rows & E1 & E2 & E3); [intros y Hy; apply Hi; right; exact Hy|].
    destruct (C x (Hi x (or_introl eq_refl))) as (r & R1 & R2 & R3). exists (r :: rows). cbn [map map_res]. rewrite R1. cbn [bind]. rewrite E1. cbn [bind].
    split; [reflexivity|]. rewrite R2, E2. split; [reflexivity|]. rewrite R2 in R3. rewrite R3. cbn [bind]. rewrite E3. reflexivity.
  Qed.
  Hypothesis none_free : ~ In NONE_ELEM names.
  Hypothesis Hsay : forall w, In w table -> rows_say says conv w.
  Lemma conv_names : map z_id (map conv table) = names.
  Proof. rewrite map_map. apply map_ext_in. intros w Hw. apply Hsay, Hw. Qed.
  Lemma follows_said a b : follows (map conv table) a b <-> said_before says table a b.
  Proof.
    unfold follows, said_before. rewrite conv_names. fold names. split.
    - intros (Ha & z & q & Hz & Hq & Eb & Ea). split; [exact Ha|]. apply in_map_iff in Hz as (w & <- & Hw).
      destruct (Hsay w Hw) as (E1 & _ & _ & nones & qs & Eq & N & E & _). rewrite Eq in Hq. apply in_app_or in Hq as [Hq|Hq].
      + exfalso. apply none_free. rewrite <- (N q Hq), Ea. exact Ha.
      + exists w, (said_of q). split; [exact Hw|]. split; [rewrite <- E; apply in_map, Hq|]. split; [congruence|exact Ea].
    - intros (Ha & w & s & Hw & Hs & Eb & Ea). split; [exact Ha|]. exists (conv w). destruct (Hsay w Hw) as (E1 & _ & _ & nones & qs & Eq & N & E & _).
      rewrite <- E in Hs. apply in_map_iff in Hs as (q & <- & Hq). exists q. split; [apply in_map, Hw|]. split; [rewrite Eq; apply in_or_app; right; exact Hq|]. split; [congruence|exact Ea].
  Qed.
  Lemma row_edges_said keep w : In w table ->
    row_edges names (with_links (conv w) (fun q => keep (q_pred q) (z_id (conv w)))) = said_edges names keep says w.
  Proof.
    intros Hw. destruct (Hsay w Hw) as (E1 & _ & _ & nones & qs & Eq & N & E & Hl). unfold row_edges, said_edges, with_links. cbn [z_id z_links].
    rewrite E1, Eq, <- E, !filter_app, map_app. clear Eq E.
    match goal with |- ?x ++ _ = _ => assert (En : x = []) end.
    { clear Hl. apply str_mem_false in none_free. induction nones as [|q l IH]; [reflexivity|]. cbn [filter].
      specialize (IH (fun q' Hq' => N q' (or_intror Hq'))). destruct (keep _ _); [|exact IH]. cbn [filter].
      rewrite (N q (or_introl eq_refl)), none_free. exact IH. }
    rewrite En. cbn [app]. clear En. induction qs as [|q qs IH]; [reflexivity|]. cbn [map filter]. specialize (IH (fun q' Hq' => Hl q' (or_intror Hq'))).
    destruct (Hl q (or_introl eq_refl)) as [x Ex]. change (sd_pred (said_of q)) with (q_pred q).
    destruct (keep (q_pred q) (wk_id w)); [|rewrite andb_false_r; exact IH]. cbn [filter]. rewrite andb_true_r.
    destruct (str_mem (q_pred q) names); [|exact IH]. cbn [map]. rewrite IH. f_equal. unfold said_of. cbn [sd_pred sd_type sd_lag].
    rewrite Ex. reflexivity.
  Qed.
End Rows.

Section Graph.
  Variable (history : list hrow) (name_of : str -> nat) (to_float : str -> res Q).
  Variable (topological_sort : list nat -> list (nat * nat) -> option (list nat)) (set_order : list nat -> list nat).
  Variable (kinds : list nat) (find_work_resources : str -> Z -> list req) (start finish : nat) (table : list work).
  Variable (all change : bool) (says : work -> list said) (conv : work -> zrow) (links : list hlink).
  Let names := map wk_id table.
  Hypothesis Hopt : all && negb change = false.
  Hypothesis Hsort : topological_sort_ok topological_sort.
  Hypothesis Hset : forall l, Permutation (set_order l) l.
  Hypothesis Hne : table <> [].
  Hypothesis Hnd : NoDup names.
  Hypothesis Hno : ~ In NONE_ELEM names.
  Hypothesis Hvol : forall w, In w table -> volumes_given kinds w.
  Hypothesis Hs : (List.length table <= start)%nat.
  Hypothesis Hf : (List.length table <= finish)%nat.
  Hypothesis Hsf : start <> finish.
  Hypothesis El : get_all_seq_statistic history name_of names = Ok links.
  Hypothesis Hsay : forall w, In w table -> rows_say says conv w.
  Hypothesis Hconn : forall w, In w table -> exists r, preprocess to_float (written w) = Ok r /\ p_id r = wk_id w /\
      connect all change names (filter (fun h => str_eqb (hl_work h) (p_id r)) links) r = Ok (unz (conv w)).
  Lemma graph_said :
    exists keep w cs,
      parse_with_history history name_of to_float topological_sort set_order kinds find_work_resources start finish all change
         (map written table) = Ok (Ends w)
      /\ graph_says says keep table kinds find_work_resources start finish w
      /\ (forall a b, keep a b = false -> said_before says table a b -> clos_refl_trans str (said_before says table) b a)
      /\ ((forall a, ~ clos_trans str (said_before says table) a a) -> forall a b, said_before says table a b -> keep a b = true)
      /\ (let zs := map conv table in
          let zs' := map (fun z => with_links z (fun q => keep (q_pred q) (z_id z))) zs in
          LoopTheorems.broken (LoopTheorems.row_links (map (fun z => loop_row (map z_id zs) (unz z)) zs)) cs
                        (LoopTheorems.row_links (map (fun z => loop_row (map z_id zs) (unz z)) zs'))).
  Proof.
    set (zs := map conv table).
    assert (Ez : map z_id zs = names) by (eapply conv_names; exact Hsay).
    destruct (break_loops_spec zs) as (keep & Eb & Hfree & (cs & Hbroken) & Hgone & Hall); [rewrite Ez; exact Hnd|rewrite Ez; exact Hno|].
    set (zs' := map (fun z => with_links z (fun q => keep (q_pred q) (z_id z))) zs) in *.
    assert (Ez' : map z_id zs' = names) by (unfold zs'; rewrite map_map; cbn; exact Ez).
    assert (Elen : List.length zs' = List.length table) by (unfold zs', zs; rewrite !map_length; reflexivity).
    assert (Hreqs : forall x, In x table -> exists l, reqs_of kinds find_work_resources (unz (conv x)) = Ok l /\ reqs_given kinds x l
              /\ (wk_reqs x = None -> l = find_work_resources (wk_id x) (wk_volume x))).
    { intros x Hx. assert (Hv := Hvol x Hx). destruct (Hsay x Hx) as (E1 & E2 & E3 & _).
      unfold reqs_of, reqs_given, volumes_given in *. cbn [unz p_reqs p_id p_volume]. rewrite E1, E2, E3.
      destruct (wk_reqs x) as [[[least greatest] volume]|].
      - destruct (given_reqs_spec least greatest volume kinds Hv) as (l & E & H). exists l. split; [exact E|]. split; [exact H|discriminate].
      - exists (find_work_resources (wk_id x) (wk_volume x)). auto. }
    destruct (work_graph_spec topological_sort set_order kinds find_work_resources start finish Hsort Hset zs') as
      (w & own & es & ef & middle & W0 & W1 & W2 & W3 & W4 & W5 & W6 & W7 & W8 & W9 & W10 & W11 & W12 & W13).
    { rewrite Ez'. exact Hnd. }
    { intros C. rewrite C in Elen. destruct table; [congruence|discriminate]. }
    { exact Hfree. }
    { intros z Hz. unfold zs', zs in Hz. rewrite map_map in Hz. apply in_map_iff in Hz as (x & <- & Hx).
      destruct (Hreqs x Hx) as (l & E & _). exists l. exact E. }
    { rewrite Elen. exact Hs. }
    { rewrite Elen. exact Hf. }
    { exact Hsf. }
    rewrite Ez', Elen in *.
    assert (Hlt : forall k, (k < List.length table)%nat <-> exists x, In x names /\ k = num names x).
    { assert (L : List.length names = List.length table) by (unfold names; apply map_length).
      intros k. split.
      - intros Hk. exists (nth k names []). rewrite <- L in Hk. split; [apply nth_In; exact Hk|symmetry; apply num_nth; assumption].
      - intros (x & Hx & ->). rewrite <- L. apply num_lt, Hx. }
    assert (HJ := follows_said says conv table Hno Hsay). fold zs in HJ.
    exists keep, w, cs. split; [|split; [|split; [|split; [|exact Hbroken]]]].
    - unfold parse_with_history, set_connections_info. rewrite Hopt.
      destruct (rows_all to_float all change conv table links Hconn) as (rows & R1 & R2 & R3).
      rewrite R1. cbn [bind]. rewrite R2. fold names. rewrite El. cbn [bind]. fold names in R3. rewrite R3. cbn [bind]. fold zs. rewrite Eb. cbn [bind]. exact W0.
    - split; [exact W1|]. split; [exact W2|]. exists own, es, ef, middle. fold names.
      split; [exact W3|]. split; [|split; [exact W5|split; [exact W6|split; [|split; [|split]]]]].
      + rewrite W4, num_names by exact Hnd. unfold names. rewrite map_length. reflexivity.
      + rewrite W7. unfold zs', zs. rewrite map_map, !flat_map_concat_map, map_map.
        match goal with |- Permutation (List.concat ?a) (List.concat ?b) => assert (E : a = b); [|rewrite E; apply Permutation_refl] end.
        apply map_ext_in. intros x Hx. apply (row_edges_said says conv table Hno Hsay keep x Hx).
      + intros e. rewrite W8. split.
        * intros (k & Hk & -> & H). apply Hlt in Hk as (x & Hx & ->). exists x. auto.
        * intros (x & Hx & -> & H). exists (num names x). split; [apply Hlt; exists x; auto|auto].
      + intros e. rewrite W9. split.
        * intros (k & Hk & -> & H). apply Hlt in Hk as (x & Hx & ->). exists x. auto.
        * intros (x & Hx & -> & H). exists (num names x). split; [apply Hlt; exists x; auto|auto].
      + intros x Hx. cbv zeta. set (z := with_links (conv x) (fun q => keep (q_pred q) (z_id (conv x)))).
        assert (Hz : In z zs') by (unfold zs', zs; rewrite map_map; apply in_map_iff; exists x; auto).
        destruct (Hsay x Hx) as (E1 & E2 & E3 & _).
        assert (Ei : wk_id x = z_id z) by (symmetry; exact E1). assert (Eu : g_unit (wg_graph w) (num names (wk_id x)) = the_unit kinds find_work_resources z) by (rewrite Ei; apply W10, Hz).
        rewrite Eu. unfold the_unit. cbn [u_volume u_service u_reqs].
        destruct (Hreqs x Hx) as (l & E & H1 & H2). unfold the_reqs.
        change (reqs_of kinds find_work_resources (unz z)) with (reqs_of kinds find_work_resources (unz (conv x))). rewrite E.
        split; [exact E2|]. split; [destruct l; split; congruence|]. split; [exact H1|exact H2].
    - intros a b Hk Hp. assert (Hp' := Hp). apply HJ in Hp' as (_ & z & q & Hz & Hq & <- & <-).
      destruct (Hgone z q Hz Hq Hk) as [_ P]. eapply clos_rt_iff; [|exact P]. intros. apply HJ.
    - intros Hac a b Hp. assert (Hfr : loop_free zs).
      { intros c Hc. apply (Hac c). eapply clos_trans_iff; [|exact Hc]. intros. apply HJ. }
      specialize (Hall Hfr). apply HJ in Hp as (_ & z & q & Hz & Hq & <- & <-).
      destruct (keep (q_pred q) (z_id z)) eqn:Ek; [reflexivity|exfalso].
      unfold zs' in Hall. rewrite <- (map_id zs) in Hall at 2. apply map_ext_in_iff with (a := z) in Hall; [|exact Hz].
      apply (f_equal z_links) in Hall. cbn [with_links z_links] in Hall. rewrite <- Hall in Hq. apply filter_In in Hq as [_ Hq]. congruence.
  Qed.
End Graph.

(** ** Rows with changed links *)
Definition changed_row (value : str -> Q) (links : list hlink) (w : work) : zrow :=
  Zrow (wk_id w)
    ((match wk_links w with
      | [] => [Quad NONE_ELEM FS (match filter (fun h => str_eqb (hl_work h) (wk_id w)) links with [] => Lag 1 | _ => NoLag end) INF]
      | ls => map (fun l => match told links w (lk_pred l) with
                            | Some h => Quad (lk_pred l) (hl_type h) (Lag (hl_lag h)) (hl_count h)
                            | None => Quad (lk_pred l) (lk_type l) (Lag (value (lk_lag l))) INF
                            end) ls
      end) ++ map quad_of (new_links links w)) (wk_volume w) (wk_reqs w).
Definition set_info (q : quad) (i : edge_type * lag * Z) : quad := let '(t, l, c) := i in Quad (q_pred q) t l c.
Lemma set_nth_app {A} (x y : A) : forall (l r : list A), set_nth (List.length l) x (l ++ y :: r) = Ok (l ++ x :: r).
Proof. induction l as [|z l IH]; intros r; cbn; [reflexivity|]. rewrite IH. reflexivity. Qed.
Lemma update_spec found : forall qs done,
  update (List.length done) (map q_pred qs) found (map q_type (done ++ qs)) (map q_lag (done ++ qs)) (map q_count (done ++ qs))
  = let qs' := done ++ map (fun q => match found (q_pred q) with Some i => set_info q i | None => q end) qs in
    Ok (map q_type qs', map q_lag qs', map q_count qs').
Proof.
  induction qs as [|q qs IH]; intros dn; [reflexivity|]. cbn [map update]. destruct (found (q_pred q)) as [[[t l] c]|].
  - rewrite !map_app. cbn [map].
    rewrite <- (map_length q_type dn) at 1. rewrite set_nth_app. cbn [bind].
    rewrite <- (map_length q_lag dn) at 1. rewrite set_nth_app. cbn [bind].
    rewrite <- (map_length q_count dn) at 1. rewrite set_nth_app. cbn [bind].
    specialize (IH (dn ++ [set_info q (t, l, c)])). rewrite app_length in IH. cbn [List.length] in IH. rewrite Nat.add_1_r in IH.
    rewrite <- !app_assoc in IH. cbn [app] in IH. rewrite !map_app in IH. cbn [map set_info q_type q_lag q_count] in IH. rewrite IH.
    cbv zeta. rewrite <- ?app_assoc, ?map_app. cbn [map app set_info q_type q_lag q_count]. reflexivity.
  - specialize (IH (dn ++ [q])). rewrite app_length in IH. cbn [List.length] in IH. rewrite Nat.add_1_r in IH.
    rewrite <- !app_assoc in IH. cbn [app] in IH. rewrite IH. cbv zeta. rewrite <- ?app_assoc. reflexivity.
Qed.
Lemma lookup_info info p : lookup (map hl_pred info) (map hl_type info) (map (fun h => Lag (hl_lag h)) info) (map hl_count info) p
  = option_map (fun h => (hl_type h, Lag (hl_lag h), hl_count h)) (find (fun h => str_eqb (hl_pred h) p) info).
Proof. induction info as [|h info IH]; [reflexivity|]. cbn [map lookup find]. destruct (str_eqb (hl_pred h) p); [reflexivity|exact IH]. Qed.
Lemma find_filter {A} (f g : A -> bool) l : find g (filter f l) = find (fun x => f x && g x) l.
Proof. induction l as [|x l IH]; [reflexivity|]. cbn. destruct (f x); cbn; [destruct (g x)|]; auto. Qed.

Section Changed.
  Variable (to_float : str -> res Q) (value : str -> Q).
  Variable (table : list work) (links : list hlink).
  Let names := map wk_id table.
  Hypothesis none_free : ~ In NONE_ELEM names.
  Hypothesis links_nodup : NoDup (map (fun h => (hl_work h, hl_pred h)) links).
  Hypothesis links_in : forall h, In h links -> In (hl_work h) names /\ In (hl_pred h) names.
  Lemma info_ok x h : In h (filter (fun h => str_eqb (hl_work h) x) links) -> In (hl_pred h) names /\ hl_pred h <> NONE_ELEM.
  Proof.
    intros Hh. apply filter_In in Hh as [Hh _]. destruct (links_in h Hh) as [_ H]. split; [exact H|]. intros C. apply none_free. rewrite <- C. exact H.
  Qed.
  Lemma read_parts w : writable to_float value w -> exists r, preprocess to_float (written w) = Ok r /\ p_id r = wk_id w /\
    p_preds r = map q_pred (z_links (to_zrow value w)) /\ p_types r = map q_type (z_links (to_zrow value w)) /\
    p_lags r = map q_lag (z_links (to_zrow value w)) /\
    repeat INF (List.length (p_lags r)) = map q_count (z_links (to_zrow value w)) /\ p_volume r = wk_volume w /\ p_reqs r = wk_reqs w.
  Proof.
    intros Hw. destruct (read_row to_float value w Hw) as (r & Er & En). exists r. split; [exact Er|].
    assert (E1 : p_preds r = map q_pred (z_links (to_zrow value w))) by exact (f_equal p_preds En).
    assert (E3 : p_lags r = map q_lag (z_links (to_zrow value w))) by exact (f_equal p_lags En).
    assert (E4 : repeat INF (List.length (p_preds r)) = map q_count (z_links (to_zrow value w))) by exact (f_equal p_counts En).
    split; [exact (f_equal p_id En)|]. split; [exact E1|]. split; [exact (f_equal p_types En)|]. split; [exact E3|].
    split; [rewrite <- E4, E1, E3, !map_length; reflexivity|]. split; [exact (f_equal p_volume En)|exact (f_equal p_reqs En)].
  Qed.
  Lemma changed_row_connect w : writable to_float value w -> (forall l, In l (wk_links w) -> lk_pred l <> NONE_ELEM) ->
    exists r, preprocess to_float (written w) = Ok r /\ p_id r = wk_id w /\
      connect false true names (filter (fun h => str_eqb (hl_work h) (p_id r)) links) r = Ok (unz (changed_row value links w)).
  Proof.
    intros Hw Hn. destruct (read_parts w Hw) as (r & Er & Ei & E1 & E2 & E3 & E4 & E5 & E6). exists r. split; [exact Er|]. split; [exact Ei|].
    rewrite Ei. assert (Hinfo := info_ok (wk_id w)). assert (Hpn := preds_nodup links links_nodup (wk_id w)).
    set (info := filter (fun h => str_eqb (hl_work h) (wk_id w)) links) in *.
    unfold connect. destruct (history_lists info) as [[[ids types] lags] counts] eqn:Eh. cbn [negb].
    rewrite E4, E1, E2, E3. cbv zeta.
    assert (U := update_spec (lookup ids types lags counts) (z_links (to_zrow value w)) []). cbn [app List.length] in U. rewrite U. clear U.
    cbv zeta. cbn [bind].
    set (qs := map (fun q => match lookup ids types lags counts (q_pred q) with Some i => set_info q i | None => q end) (z_links (to_zrow value w))).
    assert (Ep : map q_pred (z_links (to_zrow value w)) = map q_pred qs).
    { unfold qs. rewrite map_map. apply map_ext. intros q. destruct (lookup _ _ _ _ _) as [[[? ?] ?]|]; reflexivity. }
    rewrite Ep. fold (lists_of qs).
    assert (Ea : append_new names ids types lags counts (lists_of qs) = lists_of (z_links (changed_row value links w))).
    { assert (Enew : map quad_of (filter (fun h => negb (str_mem (hl_pred h) (map q_pred qs))) info) = map quad_of (new_links links w)).
      { f_equal. unfold new_links. transitivity (filter (fun h => negb (str_mem (hl_pred h) (map lk_pred (wk_links w)))) info).
        - apply filter_ext_in. intros h Hh. f_equal. rewrite <- Ep. unfold to_zrow. cbn [z_links]. destruct (wk_links w) as [|l ls] eqn:El.
          + cbn [map q_pred]. apply str_mem_false. intros [C|[]]. symmetry in C. destruct (Hinfo h Hh). tauto.
          + rewrite map_map. reflexivity.
        - unfold info. clear. induction links as [|h l IH]; [reflexivity|]. cbn [filter]. destruct (str_eqb (hl_work h) (wk_id w)); cbn [andb filter]; [|exact IH].
          destruct (negb _); [rewrite IH|]; auto. }
      unfold changed_row. cbn [z_links]. rewrite <- Enew. fold info. destruct info as [|h0 info0] eqn:Einfo.
      - cbn [history_lists] in Eh. injection Eh as <- <- <- <-. cbn [filter]. change (map quad_of []) with (@nil quad). rewrite app_nil_r.
        cbn [append_new]. unfold lists_of at 1. rewrite str_eqb_refl. cbn [negb]. rewrite andb_false_r, andb_false_l.
        fold (lists_of qs). f_equal. unfold qs. cbn [to_zrow z_links]. destruct (wk_links w) as [|l0 ls] eqn:El; [reflexivity|].
        rewrite map_map. apply map_ext_in. intros l Hl. cbn [q_pred lookup]. specialize (Hn l Hl).
        assert (str_eqb NONE_ELEM (lk_pred l) = false) as -> by (apply str_eqb_false; congruence).
        unfold told. rewrite <- find_filter. fold info. rewrite Einfo. reflexivity.
      - rewrite <- Einfo in *. assert (E : history_lists info = (map hl_pred info, map hl_type info, map (fun h => Lag (hl_lag h)) info, map hl_count info))
          by (rewrite Einfo; reflexivity). rewrite Eh in E. injection E as -> -> -> ->. rewrite append_new_spec; [|exact Hpn|exact Hinfo].
        f_equal. f_equal. unfold qs. cbn [to_zrow z_links]. destruct (wk_links w) as [|l0 ls] eqn:El.
        + cbn [map q_pred]. rewrite lookup_info. destruct (find (fun h => str_eqb (hl_pred h) NONE_ELEM) info) as [h|] eqn:Ef.
          * apply find_some in Ef as [Hh E]. apply str_eqb_true in E. destruct (Hinfo h Hh). tauto.
          * try rewrite Einfo. reflexivity.
        + rewrite map_map. apply map_ext_in. intros l Hl. cbn [q_pred]. rewrite lookup_info. unfold told. rewrite <- find_filter. fold info.
          destruct (find _ info) as [h|]; reflexivity. }
    rewrite Ea. cbn [bind]. rewrite fill_full. cbn [bind]. unfold lists_of, unz. f_equal. rewrite Ei, E5, E6. reflexivity.
  Qed.
  Lemma changed_row_says w : rows_say (changed value links) (changed_row value links) w.
  Proof.
    split; [reflexivity|]. split; [reflexivity|]. split; [reflexivity|]. unfold changed, changed_row. cbn [z_links].
    assert (En : forall hs, map said_of (map quad_of hs) = map as_told hs) by (intros hs; rewrite map_map; reflexivity).
    assert (El : forall hs q, In q (map quad_of hs) -> exists x, q_lag q = Lag x).
    { intros hs q Hq. apply in_map_iff in Hq as (h & <- & _). eexists. reflexivity. }
    destruct (wk_links w) as [|l0 ls] eqn:Ew.
    - eexists [_], _. split; [reflexivity|]. split; [intros q [<-|[]]; reflexivity|]. split; [apply En|apply El].
    - exists [], (map (fun l => match told links w (lk_pred l) with
                            | Some h => Quad (lk_pred l) (hl_type h) (Lag (hl_lag h)) (hl_count h)
                            | None => Quad (lk_pred l) (lk_type l) (Lag (value (lk_lag l))) INF
                            end) (l0 :: ls) ++ map quad_of (new_links links w)).
      split; [reflexivity|]. split; [intros q []|]. split.
      + rewrite map_app, En. f_equal. rewrite map_map. apply map_ext. intros l. destruct (told _ _ _); reflexivity.
      + intros q Hq. apply in_app_or in Hq as [Hq|Hq]; [|apply (El _ _ Hq)]. apply in_map_iff in Hq as (l & <- & _).
        destruct (told _ _ _); eexists; reflexivity.
  Qed.
End Changed.

(** ** Rows rewritten *)
Fixpoint turn (preds : list str) (infos : list (edge_type * Q * Z)) : list quad :=
  match preds, infos with
  | [], _ => []
  | p :: ps, (t, q, c) :: is => Quad p t (Lag q) c :: turn ps is
  | p :: ps, [] => Quad p FS (Lag 1) 0 :: turn ps []
  end.
Definition info_of (h : hlink) : edge_type * Q * Z := (hl_type h, hl_lag h, hl_count h).
Definition rewritten_row (links : list hlink) (w : work) : zrow :=
  Zrow (wk_id w)
    (match wk_links w with
     | [] => match filter (fun h => str_eqb (hl_work h) (wk_id w)) links with
             | [] => [Quad NONE_ELEM FS (Lag 1) INF]
             | info => map quad_of info
             end
     | ls => turn (map lk_pred ls) (match known links w with [] => [(FS, 1%Q, INF)] | k => map info_of k end)
     end) (wk_volume w) (wk_reqs w).
Lemma turn_lists : forall preds infos, (List.length infos <= List.length preds)%nat ->
  map q_pred (turn preds infos) = preds
  /\ map q_type (turn preds infos) = map (fun i => fst (fst i)) infos ++ repeat FS (List.length preds - List.length infos)
  /\ map q_lag (turn preds infos) = map (fun i => Lag (snd (fst i))) infos ++ repeat (Lag 1) (List.length preds - List.length infos)
  /\ map q_count (turn preds infos) = map snd infos ++ repeat 0 (List.length preds - List.length infos).
Proof.
  induction preds as [|p ps IH]; intros infos Hl.
  - destruct infos; [cbn; auto|cbn in Hl; lia].
  - destruct infos as [|[[t q] c] is].
    + destruct (IH [] ltac:(cbn; lia)) as (H1 & H2 & H3 & H4). cbn [turn map List.length Nat.sub repeat app q_pred q_type q_lag q_count] in *.
      rewrite Nat.sub_0_r in H2, H3, H4. rewrite H1, H2, H3, H4. auto.
    + destruct (IH is ltac:(cbn in Hl; lia)) as (H1 & H2 & H3 & H4). cbn [turn map List.length Nat.sub app q_pred q_type q_lag q_count fst snd].
      rewrite H1, H2, H3, H4. auto.
Qed.
Section Rewritten.
  Variable (to_float : str -> res Q) (value : str -> Q).
  Variable (table : list work) (links : list hlink).
  Let names := map wk_id table.
  Hypothesis none_free : ~ In NONE_ELEM names.
  Hypothesis links_nodup : NoDup (map (fun h => (hl_work h, hl_pred h)) links).
  Hypothesis links_in : forall h, In h links -> In (hl_work h) names /\ In (hl_pred h) names.
  Lemma known_info w : filter (fun h => str_mem (hl_pred h) (map lk_pred (wk_links w))) (filter (fun h => str_eqb (hl_work h) (wk_id w)) links)
    = known links w.
  Proof.
    unfold known. clear. induction links as [|h l IH]; [reflexivity|]. cbn [filter]. destruct (str_eqb (hl_work h) (wk_id w)); cbn [andb filter]; [|exact IH].
    destruct (str_mem _ _); [rewrite IH|]; auto.
  Qed.
  Lemma known_length w : (List.length (known links w) <= List.length (wk_links w))%nat.
  Proof.
    rewrite <- (map_length hl_pred), <- (map_length lk_pred (wk_links w)). apply NoDup_incl_length.
    - rewrite <- known_info. assert (H := preds_nodup links links_nodup (wk_id w)).
      induction (filter (fun h => str_eqb (hl_work h) (wk_id w)) links) as [|h l IH]; [constructor|]. cbn [map] in H. apply NoDup_cons_iff in H as [H1 H2].
      cbn [filter]. destruct (str_mem _ _); [|auto]. cbn [map]. constructor; [|auto]. intros C. apply H1. apply in_map_iff in C as (h' & E & Hh').
      apply filter_In in Hh' as [Hh' _]. rewrite <- E. apply in_map, Hh'.
    - intros p Hp. apply in_map_iff in Hp as (h & <- & Hh). apply filter_In in Hh as [_ E]. apply andb_true_iff in E as [_ E]. apply str_mem_true, E.
  Qed.
  Lemma rewritten_row_connect w : writable to_float value w -> (forall l, In l (wk_links w) -> lk_pred l <> NONE_ELEM) ->
    exists r, preprocess to_float (written w) = Ok r /\ p_id r = wk_id w /\
      connect true true names (filter (fun h => str_eqb (hl_work h) (p_id r)) links) r = Ok (unz (rewritten_row links w)).
  Proof.
    intros Hw Hn. destruct (read_parts to_float value w Hw) as (r & Er & Ei & E1 & E2 & E3 & E4 & E5 & E6). exists r. split; [exact Er|]. split; [exact Ei|].
    rewrite Ei. assert (Hk := known_info w). assert (Hlen := known_length w).
    set (info := filter (fun h => str_eqb (hl_work h) (wk_id w)) links) in *.
    unfold connect. destruct (history_lists info) as [[[ids types] lags] counts] eqn:Eh. cbn [negb].
    assert (Fin : forall qs, fill (lists_of qs) = Ok (lists_of qs)) by apply fill_full.
    cbn [to_zrow z_links] in E1. unfold rewritten_row. fold info. destruct (wk_links w) as [|l0 ls] eqn:El.
    - rewrite E1. cbn [map q_pred]. rewrite str_eqb_refl. cbn [bind].
      assert (Eq : (ids, types, lags, counts) = lists_of (match info with [] => [Quad NONE_ELEM FS (Lag 1) INF] | _ => map quad_of info end)).
      { rewrite <- Eh. destruct info as [|h0 i0]; [reflexivity|]. unfold history_lists, lists_of. rewrite !map_map. reflexivity. }
      rewrite Eq, Fin. cbn [bind]. unfold lists_of, unz. cbn [z_id z_links z_volume z_reqs]. rewrite Ei, E5, E6. destruct info; reflexivity.
    - rewrite map_map in E1. cbn [q_pred] in E1. rewrite E1.
      assert (Efl : match map (fun l => lk_pred l) (l0 :: ls) with [x] => str_eqb x NONE_ELEM | _ => false end = false).
      { destruct ls; [|reflexivity]. cbn [map]. apply str_eqb_false, Hn. left. reflexivity. }
      rewrite Efl. clear Efl. change (map (fun l => lk_pred l) (l0 :: ls)) with (map lk_pred (l0 :: ls)). rewrite Hk. cbn [bind].
      set (infos := match known links w with [] => [(FS, 1%Q, INF)] | k => map info_of k end).
      assert (Hil : (List.length infos <= List.length (map lk_pred (l0 :: ls)))%nat).
      { rewrite map_length. unfold infos. destruct (known links w); [cbn; lia|]. rewrite map_length. exact Hlen. }
      destruct (turn_lists _ infos Hil) as (T1 & T2 & T3 & T4).
      match goal with |- context [fill ?m] => assert (Eq : m = (map lk_pred (l0 :: ls), map (fun i => fst (fst i)) infos,
          map (fun i => Lag (snd (fst i))) infos, map snd infos)) end.
      { unfold infos. destruct (known links w); [reflexivity|]. rewrite !map_map. reflexivity. }
      rewrite Eq. unfold fill. rewrite map_length with (l := infos).
      assert (Elt : (List.length (map lk_pred (l0 :: ls)) <? List.length infos)%nat = false) by (apply Nat.ltb_ge; exact Hil).
      rewrite Elt. cbn [bind]. rewrite <- T2, <- T3, <- T4. unfold unz. cbn [z_id z_links z_volume z_reqs]. rewrite T1, Ei, E5, E6. reflexivity.
  Qed.
  Lemma turn_says : forall preds hs, map said_of (turn preds (map info_of hs)) = in_turn preds hs.
  Proof.
    induction preds as [|p ps IH]; intros [|h hs]; [reflexivity|reflexivity| |].
    - cbn [map turn in_turn]. specialize (IH []). cbn [map] in IH. rewrite IH. reflexivity.
    - cbn [map turn in_turn]. unfold info_of at 1. cbn [map]. rewrite IH. reflexivity.
  Qed.
  Lemma turn_lag : forall preds infos q, In q (turn preds infos) -> exists x, q_lag q = Lag x.
  Proof.
    induction preds as [|p ps IH]; intros infos q Hq; [destruct Hq|]. destruct infos as [|[[t x] c] is]; destruct Hq as [<-|Hq]; [eexists; reflexivity|eauto|eexists; reflexivity|eauto].
  Qed.
  Lemma rewritten_row_says w : rows_say (rewritten links) (rewritten_row links) w.
  Proof.
    split; [reflexivity|]. split; [reflexivity|]. split; [reflexivity|]. unfold rewritten, rewritten_row. cbn [z_links].
    destruct (wk_links w) as [|l0 ls] eqn:Ew.
    - destruct (filter _ links) as [|h0 i0] eqn:Ei.
      + eexists [_], []. split; [reflexivity|]. split; [intros q [<-|[]]; reflexivity|]. split; [reflexivity|intros q []].
      + exists [], (map quad_of (h0 :: i0)). split; [reflexivity|]. split; [intros q []|]. split; [rewrite map_map; reflexivity|].
        intros q Hq. apply in_map_iff in Hq as (h & <- & _). eexists. reflexivity.
    - exists [], (turn (map lk_pred (l0 :: ls)) (match known links w with [] => [(FS, 1%Q, INF)] | k => map info_of k end)).
      split; [reflexivity|]. split; [intros q []|]. split; [|apply turn_lag].
      destruct (known links w) as [|h hs]; [|apply turn_says]. cbn [map turn in_turn]. assert (H := turn_says (map lk_pred ls) []). cbn [map] in H.
      rewrite H. reflexivity.
  Qed.
End Rewritten.

(** ** C105 *)
(** A link of the table of which the history says nothing. *)
Definition untold (table : list work) (links : list hlink) (a b : str) : Prop :=
  precedes table a b /\ forall h, In h links -> hl_work h = b -> hl_pred h <> a.

Lemma untold_kept (value : str -> Q) (table : list work) (links : list hlink) (keep : str -> str -> bool) cs :
  let names := map wk_id table in
  ~ In NONE_ELEM names -> NoDup names -> (forall h, In h links -> In (hl_work h) names /\ In (hl_pred h) names) ->
  (forall h, In h links -> hl_count h < INF) ->
  let zs := map (changed_row value links) table in
  let zs' := map (fun z => with_links z (fun q => keep (q_pred q) (z_id z))) zs in
  LoopTheorems.broken (LoopTheorems.row_links (map (fun z => loop_row (map z_id zs) (unz z)) zs)) cs
                      (LoopTheorems.row_links (map (fun z => loop_row (map z_id zs) (unz z)) zs')) ->
  (forall a, ~ clos_trans str (untold table links) a a) -> forall a b, untold table links a b -> keep a b = true.
Proof.
  intros names none_free distinct links_in counts_small zs zs' Hb Hac a b Hab.
  assert (Ez : map z_id zs = names) by (unfold zs, names; rewrite map_map; reflexivity).
  assert (Ez' : map z_id zs' = names) by (unfold zs'; rewrite map_map; exact Ez).
  set (zs0 := map (fun w => with_links (changed_row value links w) (fun q => q_count q =? INF)) table).
  assert (Ez0 : map z_id zs0 = names) by (unfold zs0, names; rewrite map_map; reflexivity).
  assert (Hb' : LoopTheorems.broken (LoopTheorems.row_links (map (fun z => loop_row (map z_id zs) (unz z)) zs)) cs
                      (LoopTheorems.row_links (map (fun z => loop_row (map z_id zs') (unz z)) zs'))) by (rewrite Ez'; rewrite Ez in Hb |- *; exact Hb).
  clear Hb.
  (** the quads of a row with the count of an untold link, and the others *)
  assert (Hq : forall w q, In w table -> In q (z_links (changed_row value links w)) -> q_pred q <> NONE_ELEM ->
             (q_count q = INF /\ In (q_pred q) (map lk_pred (wk_links w)) /\ told links w (q_pred q) = None)
             \/ (q_count q < INF /\ exists h, In h links /\ hl_work h = wk_id w /\ hl_pred h = q_pred q)).
  { intros w q Hw Hq Hn. unfold changed_row in Hq. cbn [z_links] in Hq. apply in_app_or in Hq as [Hq|Hq].
    - destruct (wk_links w) as [|l0 ls] eqn:Ew; [destruct Hq as [<-|[]]; exfalso; apply Hn; reflexivity|].
      rewrite <- Ew in *. apply in_map_iff in Hq as (l & <- & Hl). destruct (told links w (lk_pred l)) as [h|] eqn:Et; cbn [q_count q_pred].
      + right. unfold told in Et. apply find_some in Et as [Hh E]. apply andb_true_iff in E as [E1 E2]. apply str_eqb_true in E1, E2.
        split; [apply counts_small, Hh|]. exists h. auto.
      + left. split; [reflexivity|]. split; [apply in_map, Hl|exact Et].
    - right. apply in_map_iff in Hq as (h & <- & Hh). apply filter_In in Hh as [Hh E]. apply andb_true_iff in E as [E _]. apply str_eqb_true in E.
      cbn [quad_of q_count q_pred]. split; [apply counts_small, Hh|]. exists h. auto. }
  assert (Hnt : forall w p, told links w p = None -> forall h, In h links -> hl_work h = wk_id w -> hl_pred h <> p).
  { intros w p Ht h Hh E1 E2. unfold told in Ht. apply (find_none _ _ Ht) in Hh. rewrite E1, E2, !str_eqb_refl in Hh. discriminate. }
  assert (Hsame : forall x x2, In x table -> In x2 table -> wk_id x = wk_id x2 -> x = x2).
  { intros x x2 Hx Hx2 E. clear -distinct Hx Hx2 E. unfold names in distinct. induction table as [|y t IH]; [destruct Hx|]. cbn in distinct. apply NoDup_cons_iff in distinct as [Hy Hnd].
    destruct Hx as [->|Hx], Hx2 as [->|Hx2]; auto; exfalso; apply Hy; [rewrite E|rewrite <- E]; apply in_map; assumption. }
  assert (HU : forall x y, follows zs0 x y -> untold table links x y).
  { intros x y (Hx & z & q & Hz & Hzq & Ey & Ex). rewrite Ez0 in Hx. apply in_map_iff in Hz as (w & <- & Hw). cbn [with_links z_links z_id changed_row] in Hzq, Ey.
    apply filter_In in Hzq as [Hzq Ec]. apply Z.eqb_eq in Ec.
    destruct (Hq w q Hw Hzq) as [(_ & Hp & Ht)|(C & _)]; [intros C; apply none_free; rewrite <- C, Ex; exact Hx| |lia].
    apply in_map_iff in Hp as (l & El & Hl). split.
    - split; [exact Hx|]. exists w, l. split; [exact Hw|]. split; [exact Hl|]. split; [exact Ey|congruence].
    - intros h Hh E1. rewrite <- Ex. apply (Hnt w); [exact Ht|exact Hh|congruence]. }
  set (L0 := LoopTheorems.row_links (map (fun z => loop_row (map z_id zs0) (unz z)) zs0)).
  assert (Hac0 : LoopTheorems.acyclic L0).
  { unfold L0. apply acyclic_names; [rewrite Ez0; exact none_free|]. intros c Hc. apply (Hac c).
    assert (G : forall x y, clos_trans str (follows zs0) x y -> clos_trans str (untold table links) x y); [|apply G, Hc].
    intros x y P. induction P as [x y E|x y z _ I1 _ I2]; [apply t_step, HU, E|exact (t_trans _ _ _ _ _ I1 I2)]. }
  destruct Hab as [(Ha & w & l & Hw & Hl & Eb & Ea) Hun].
  assert (Hne : a <> NONE_ELEM) by (intros ->; exact (none_free Ha)).
  assert (Ht : told links w a = None).
  { destruct (told links w a) as [h|] eqn:E; [|reflexivity]. unfold told in E. apply find_some in E as [Hh E]. apply andb_true_iff in E as [E1 E2].
    apply str_eqb_true in E1, E2. exfalso. apply (Hun h Hh); congruence. }
  set (q := Quad a (lk_type l) (Lag (value (lk_lag l))) INF).
  assert (Hqin : In q (z_links (changed_row value links w))).
  { unfold changed_row. cbn [z_links]. apply in_or_app. left. destruct (wk_links w) as [|l0 ls] eqn:Ew; [destruct Hl|].
    apply in_map_iff. exists l. rewrite Ea, Ht. auto. }
  assert (HL0 : L0 (num names a) (num names b) (Some INF)).
  { unfold L0. apply row_links_spec. rewrite Ez0. exists (with_links (changed_row value links w) (fun q => q_count q =? INF)), q.
    split; [apply in_map_iff; exists w; auto|]. split; [cbn [with_links z_links]; apply filter_In; split; [exact Hqin|reflexivity]|].
    cbn [q_pred q q_count with_links z_id changed_row]. rewrite Eb. auto. }
  assert (HL' : LoopTheorems.row_links (map (fun z => loop_row (map z_id zs') (unz z)) zs') (num names a) (num names b) (Some INF)).
  { apply (broken_keeps L0 INF _ cs _ Hac0 Hb').
    - intros u v w0 H (w1 & H0). apply row_links_spec in H as (z & q1 & Hz & Hq1 & N1 & -> & -> & ->). unfold L0 in H0.
      apply row_links_spec in H0 as (z2 & q2 & Hz2 & Hq2 & N2 & E1 & E2 & _). rewrite Ez, Ez0 in *. cbn [LoopTheorems.weight].
      apply in_map_iff in Hz as (x & <- & Hx). apply in_map_iff in Hz2 as (x2 & <- & Hx2). cbn [with_links z_links] in Hq2.
      apply filter_In in Hq2 as [Hq2 Ec]. apply Z.eqb_eq in Ec. cbn [z_id changed_row with_links] in E2.
      apply num_inj in E2; [|apply in_map, Hx]. apply Hsame in E2; [subst x2|exact Hx|exact Hx2].
      destruct (Hq x q1 Hx Hq1 N1) as [(C & _)|(_ & h & Hh & W1 & W2)]; [lia|]. exfalso.
      apply num_inj in E1; [|rewrite <- W2; apply links_in, Hh].
      destruct (Hq x q2 Hx Hq2 N2) as [(_ & _ & Hn)|(C & _)]; [|lia]. apply (Hnt x _ Hn h Hh W1). congruence.
    - intros u v w0 H Hw0. apply row_links_spec in H as (z & q1 & Hz & Hq1 & N1 & -> & -> & ->). rewrite Ez.
      apply in_map_iff in Hz as (x & <- & Hx). cbn [LoopTheorems.weight] in Hw0. exists (Some (q_count q1)).
      destruct (Hq x q1 Hx Hq1 N1) as [(C & _)|(C & _)]; [|lia].
      unfold L0. apply row_links_spec. rewrite Ez0. exists (with_links (changed_row value links x) (fun q => q_count q =? INF)), q1.
      split; [apply in_map_iff; exists x; auto|]. split; [cbn [with_links z_links]; apply filter_In; split; [exact Hq1|apply Z.eqb_eq, C]|]. auto.
    - apply row_links_spec. rewrite Ez. exists (changed_row value links w), q. split; [apply in_map, Hw|].
      split; [exact Hqin|]. cbn [q_pred q q_count changed_row z_id]. rewrite Eb. auto.
    - exists (Some INF). exact HL0. }
  apply row_links_spec in HL' as (z & q1 & Hz & Hq1 & _ & E1 & E2 & _). rewrite Ez' in E1, E2.
  apply num_inj in E1; [|exact Ha]. apply num_inj in E2; [|rewrite <- Eb; apply in_map, Hw].
  unfold zs' in Hz. apply in_map_iff in Hz as (z0 & <- & Hz0). cbn [with_links z_links z_id] in Hq1, E2. apply filter_In in Hq1 as [_ Hk].
  rewrite E1, E2. exact Hk.
Qed.

Section Claims.
  Variable (history : list hrow) (name_of : str -> nat) (perf : nat -> nat -> list days) (to_float : str -> res Q) (value : str -> Q).
  Variable (topological_sort : list nat -> list (nat * nat) -> option (list nat)) (set_order : list nat -> list nat).
  Variable (kinds : list nat) (find_work_resources : str -> Z -> list req) (start finish : nat) (table : list work).
  Let names := map wk_id table.
  Hypothesis Hperf : forall site n, performances history site n (perf site n).
  Hypothesis Hlen : Z.of_nat (List.length history) < 2 ^ 63 - 1.
  Hypothesis Hsort : topological_sort_ok topological_sort.
  Hypothesis Hset : forall l, Permutation (set_order l) l.
  Hypothesis Hne : table <> [].
  Hypothesis Hnd : NoDup names.
  Hypothesis Hno : ~ In (lit "-1") names.
  Hypothesis Hw : forall w, In w table -> writable to_float value w /\ volumes_given kinds w
                             /\ forall l, In l (wk_links w) -> lk_pred l <> lit "-1".
  Hypothesis Hs : (List.length table <= start)%nat.
  Hypothesis Hf : (List.length table <= finish)%nat.
  Hypothesis Hsf : start <> finish.

  (** Historical data that add links and change those of the table (change_connections_info
      on, all_connections off). Every link of the table is in the graph, with type and lag of
      the history where it knows the link and as in the table where not; so are the other
      links of the history; but for links taken away to break loops, which were on loops. Of
      the links that the history does not know none is taken away if they have no loop
      themselves. *)
  Theorem history_changes_links :
    exists links keep w,
      get_all_seq_statistic history name_of names = Ok links
      /\ parse_with_history history name_of to_float topological_sort set_order kinds find_work_resources start finish false true
           (map written table) = Ok (Ends w)
      /\ graph_says (changed value links) keep table kinds find_work_resources start finish w
      /\ (forall a b, keep a b = false -> joint table links a b -> clos_refl_trans str (joint table links) b a)
      /\ ((forall a, ~ clos_trans str (joint table links) a a) -> forall a b, joint table links a b -> keep a b = true)
      /\ ((forall a, ~ clos_trans str (untold table links) a a) -> forall a b, untold table links a b -> keep a b = true).
  Proof.
    destruct (history_links history name_of perf Hperf names Hnd) as (links & El & Lnd & Lin & _).
    assert (Lin' : forall h, In h links -> In (hl_work h) names /\ In (hl_pred h) names) by (intros h Hh; destruct (Lin h Hh) as (A & B & _); auto).
    assert (Lc : forall h, In h links -> hl_count h < INF).
    { intros h Hh. destruct (Lin h Hh) as (_ & _ & _ & (_ & Ec & _) & _). rewrite Ec.
      assert (H := common_length history perf (name_of (hl_pred h)) (name_of (hl_work h)) Hperf). unfold INF. lia. }
    destruct (graph_said history name_of to_float topological_sort set_order kinds find_work_resources start finish table false true
                (changed value links) (changed_row value links) links) as (keep & w & cs & P & G & K1 & K2 & B); auto.
    { intros x Hx. apply Hw, Hx. }
    { intros x Hx. apply changed_row_says. }
    { intros x Hx. apply changed_row_connect; auto; apply Hw, Hx. }
    assert (HJ : forall a b, said_before (changed value links) table a b <-> joint table links a b).
    { intros a b. unfold said_before, joint, precedes. fold names. split.
      - intros (Ha & x & s & Hx & Hsd & Eb & Ea). unfold changed in Hsd. apply in_app_or in Hsd as [Hsd|Hsd].
        + left. split; [exact Ha|]. apply in_map_iff in Hsd as (l & <- & Hl). exists x, l. destruct (told _ _ _); cbn [sd_pred] in Ea; auto.
        + right. apply in_map_iff in Hsd as (h & <- & Hh). apply filter_In in Hh as [Hh E]. apply andb_true_iff in E as [E _]. apply str_eqb_true in E.
          exists h. split; [exact Hh|]. split; [exact Ea|congruence].
      - intros [(Ha & x & l & Hx & Hl & Eb & Ea)|(h & Hh & Ea & Eb)].
        + split; [exact Ha|]. exists x. eexists. split; [exact Hx|]. split; [unfold changed; apply in_or_app; left; apply in_map, Hl|].
          split; [exact Eb|]. destruct (told _ _ _); exact Ea.
        + destruct (Lin' h Hh) as [H1 H2]. rewrite Ea in H2. split; [exact H2|]. apply in_map_iff in H1 as (x & E1 & Hx). exists x.
          destruct (str_mem (hl_pred h) (map lk_pred (wk_links x))) eqn:E.
          * apply str_mem_true, in_map_iff in E as (l & Epl & Hl). eexists. split; [exact Hx|]. split; [unfold changed; apply in_or_app; left; apply in_map, Hl|].
            split; [congruence|]. destruct (told _ _ _); cbn [sd_pred]; congruence.
          * exists (as_told h). split; [exact Hx|]. split; [|split; [congruence|exact Ea]]. unfold changed. apply in_or_app. right.
            apply in_map, filter_In. split; [exact Hh|]. rewrite E. cbn [negb]. rewrite andb_true_r. apply str_eqb_true. congruence. }
    exists links, keep, w. split; [exact El|]. split; [exact P|]. split; [exact G|]. split; [|split].
    - intros a b Hk Hj. eapply clos_rt_iff; [exact HJ|]. apply K1; [exact Hk|apply HJ, Hj].
    - intros Hac a b Hj. apply K2; [|apply HJ, Hj]. intros c Hc. apply (Hac c). eapply clos_trans_iff; [exact HJ|exact Hc].
    - apply (untold_kept value table links keep cs Hno Hnd Lin' Lc). exact B.
  Qed.

  (** Historical data that replace what the table says of its links (both on). A work of the
      table without links gets those of the history. The others keep their predecessors;
      types and lags are handed out in the order of the history. Links taken away to break
      loops were on loops. *)
  Theorem history_rewrites_links :
    exists links keep w,
      get_all_seq_statistic history name_of names = Ok links
      /\ parse_with_history history name_of to_float topological_sort set_order kinds find_work_resources start finish true true
           (map written table) = Ok (Ends w)
      /\ graph_says (rewritten links) keep table kinds find_work_resources start finish w
      /\ (let before := said_before (rewritten links) table in
          (forall a b, keep a b = false -> before a b -> clos_refl_trans str before b a)
          /\ ((forall a, ~ clos_trans str before a a) -> forall a b, before a b -> keep a b = true)).
  Proof.
    destruct (history_links history name_of perf Hperf names Hnd) as (links & El & Lnd & Lin & _).
    assert (Lin' : forall h, In h links -> In (hl_work h) names /\ In (hl_pred h) names) by (intros h Hh; destruct (Lin h Hh) as (A & B & _); auto).
    destruct (graph_said history name_of to_float topological_sort set_order kinds find_work_resources start finish table true true
                (rewritten links) (rewritten_row links) links) as (keep & w & cs & P & G & K1 & K2 & B); auto.
    { intros x Hx. apply Hw, Hx. }
    { intros x Hx. apply rewritten_row_says. }
    { intros x Hx. apply (rewritten_row_connect to_float value); auto; apply Hw, Hx. }
    exists links, keep, w. cbv zeta. auto.
  Qed.
End Claims.
Print Assumptions history_changes_links.
Print Assumptions history_rewrites_links.

(** With both on, the types and lags are right where the history has the predecessors of the
    row in the order of the row, in particular where the row has one predecessor and the
    history knows it. Where it knows none of them, all links are FS with a lag of 1, whatever
    the table says. *)
Theorem rewritten_in_order (links : list hlink) (w : work) : wk_links w <> [] ->
  (map hl_pred (known links w) = map lk_pred (wk_links w) -> rewritten links w = map as_told (known links w))
  /\ (forall l, wk_links w = [l] -> known links w <> [] -> NoDup (map (fun h => (hl_work h, hl_pred h)) links) ->
        map hl_pred (known links w) = [lk_pred l])
  /\ (known links w = [] -> rewritten links w = map (fun l => Said (lk_pred l) FS 1) (wk_links w)).
Proof.
  intros Hne. assert (E : rewritten links w = in_turn (map lk_pred (wk_links w)) (known links w)).
  { unfold rewritten. destruct (wk_links w); [congruence|reflexivity]. }
  split; [|split].
  - intros Hp. rewrite E, <- Hp. induction (known links w) as [|h hs IH]; [reflexivity|]. cbn [map in_turn]. unfold as_told at 1. f_equal.
    clear -hs. induction hs as [|h hs IH]; [reflexivity|]. cbn [map in_turn]. unfold as_told at 1. rewrite IH. reflexivity.
  - intros l El Hk Hnd. assert (Hlen := known_length links Hnd w). rewrite El in Hlen. cbn [List.length] in Hlen.
    assert (Hin : forall h, In h (known links w) -> hl_pred h = lk_pred l).
    { intros h Hh. apply filter_In in Hh as [_ Eh]. apply andb_true_iff in Eh as [_ Eh]. apply str_mem_true in Eh. rewrite El in Eh.
      destruct Eh as [->|[]]. reflexivity. }
    destruct (known links w) as [|h [|h2 hs]]; [congruence| |cbn in Hlen; lia]. cbn [map]. rewrite (Hin h (or_introl eq_refl)). reflexivity.
  - intros Hk. rewrite E, Hk. clear. induction (wk_links w) as [|l ls IH]; [reflexivity|]. cbn [map in_turn]. rewrite IH. reflexivity.
Qed.
Print Assumptions rewritten_in_order.

(** ** Concrete cases *)
(** The table has a before c with a lag of 2 and b before c; the history knows both, a before c
    and b overlapping c, and a before b, which the table does not have. *)
Definition ch_works : list work :=
  [Wk (lit "a") [] 4 None; Wk (lit "b") [] 5 None; Wk (lit "c") [Lk (lit "b") FS (lit "2"); Lk (lit "a") SS (lit "3")] 3 None].
Example history_changes_ex :
  (forall site n, performances ex_records site n (ex_recorded site n)) /\ Z.of_nat (List.length ex_records) < 2 ^ 63 - 1
  /\ NoDup (map wk_id ch_works) /\ ~ In (lit "-1") (map wk_id ch_works)
  /\ (forall w, In w ch_works -> writable one_digit one_value w /\ volumes_given [7%nat] w /\ forall l, In l (wk_links w) -> lk_pred l <> lit "-1")
  /\ match ex_parse_history ex_records false true (map written ch_works) with
     | Ok (Ends w) => wg_nodes w = [8; 0; 1; 2; 9]%nat
                      /\ g_edges (wg_graph w) = [Ed 0 1 0 FS; Ed 1 2 0 FFS; Ed 0 2 0 FS; Ed 8 0 0 FS; Ed 2 9 0 FS]%nat
     | _ => False
     end
  /\ match ex_parse_history ex_records true true (map written ch_works) with
     | Ok (Ends w) => g_edges (wg_graph w) = [Ed 0 1 0 FS; Ed 1 2 0 FS; Ed 0 2 0 FFS; Ed 8 0 0 FS; Ed 2 9 0 FS]%nat
     | _ => False
     end.
Proof.
  split; [intros; apply performed_performances|]. split; [vm_compute; reflexivity|].
  split; [vm_compute; repeat constructor; cbn; intuition discriminate|]. split; [vm_compute; intuition discriminate|]. split; [|split].
  - intros w Hw. split; [|split].
    + intros l Hl. destruct Hw as [<-|[<-|[<-|[]]]]; cbn in Hl; [destruct Hl..|].
      destruct Hl as [<-|[<-|[]]]; cbn [lk_pred lk_lag]; (split; [unfold element, no_comma; cbn; intuition discriminate|
        split; [left; reflexivity|split; [unfold element, no_comma; cbn; intuition discriminate|reflexivity]]]).
    + destruct Hw as [<-|[<-|[<-|[]]]]; exact I.
    + intros l Hl. destruct Hw as [<-|[<-|[<-|[]]]]; cbn in Hl; [destruct Hl..|]. destruct Hl as [<-|[<-|[]]]; discriminate.
  - vm_compute. auto.
  - vm_compute. auto.
Qed.
