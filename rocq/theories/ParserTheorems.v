(** C98 and C99: the reading of a table of works and the graph that is made from it. *)
From Coq Require Import ZArith QArith List Bool Ascii String Lia Arith Relations Permutation Sorted.
From Verif Require Import TimeModel MomentumModel GraphModel ScheduleSpec Digraph StableSort TopoModel TopoProofs
  TraverseModel TraverseProofs TraverseTheorems ParserModel ParserProofs ParserGraph.
From Verif Require LoopModel LoopTheorems.
Import ListNotations.
Local Open Scope Z_scope.

(** ** Specification *)
(** A work as its author thinks of it: an id, links to preceding works with their type and
    the text of their lag, a volume and, possibly, requirements. *)
Record link := Lk { lk_pred : str; lk_type : edge_type; lk_lag : str }.
Record work := Wk { wk_id : str; wk_links : list link; wk_volume : Z;
                    wk_reqs : option (list (nat * Z) * list (nat * Z) * list (nat * Z)) }.
(** How it is written in the table: lists separated by commas; no values for no links. *)
Definition written (w : work) : cells :=
  let cell f := match wk_links w with [] => None | ls => Some (join (map f ls)) end in
  Cells (wk_id w) (cell lk_pred) (cell (fun l => type_text (lk_type l))) (cell lk_lag) (wk_volume w) (wk_reqs w).
(** The texts that can be written so: no comma within, neither empty nor "nan". Names either
    do not look like numbers or are numerals below 2^53 without superfluous zeros. *)
Definition writable (to_float : str -> res Q) (value : str -> Q) (w : work) : Prop :=
  forall l, In l (wk_links w) -> element (lk_pred l) /\ stable_name (lk_pred l)
    /\ element (lk_lag l) /\ to_float (lk_lag l) = Ok (value (lk_lag l)).

(** ** C98 *)
(** Reading a row gives its links as they were written: in order, each with its predecessor,
    type and lag. *)
Theorem cells_are_read (to_float : str -> res Q) (value : str -> Q) (w : work) :
  writable to_float value w ->
  exists r, preprocess to_float (written w) = Ok r /\ p_id r = wk_id w /\ p_volume r = wk_volume w /\ p_reqs r = wk_reqs w
    /\ (wk_links w <> [] -> p_preds r = map lk_pred (wk_links w) /\ p_types r = map lk_type (wk_links w)
                            /\ p_lags r = map (fun l => Lag (value (lk_lag l))) (wk_links w))
    /\ (wk_links w = [] -> p_preds r = [lit "-1"] /\ p_types r = [FS] /\ p_lags r = [NoLag]).
Proof.
  intros Hw. unfold preprocess, written. cbn [c_id c_preds c_types c_lags c_volume c_reqs].
  destruct (wk_links w) as [|l0 ls0] eqn:El; cbv beta iota.
  - cbn. eexists. split; [reflexivity|]. cbn. repeat (split; [reflexivity|]). split; [congruence|]. intros _. auto.
  - remember (l0 :: ls0) as ls eqn:Els. assert (Hne : ls <> []) by (rewrite Els; congruence).
    assert (Hw' : forall l, In l ls -> element (lk_pred l) /\ stable_name (lk_pred l) /\ element (lk_lag l) /\ to_float (lk_lag l) = Ok (value (lk_lag l))).
    { intros l Hl. apply Hw. rewrite El. exact Hl. }
    assert (Hm : forall f : link -> str, map f ls <> []) by (intros f C; apply map_eq_nil in C; congruence).
    rewrite (fix_cell_list normalize_if_number NONE_ELEM (fun s => s) (map lk_pred ls)); [|apply Hm|].
    2:{ intros x Hx. apply in_map_iff in Hx as (l & <- & Hl). destruct (Hw' l Hl) as (H1 & H2 & _). split; [exact H1|].
        apply normalize_stable, H2. }
    rewrite (fix_cell_list edge_type_of FS (fun s => match edge_type_of s with Ok t => t | Err _ => FS end)
               (map (fun l => type_text (lk_type l)) ls)); [|apply Hm|].
    2:{ intros x Hx. apply in_map_iff in Hx as (l & <- & Hl). destruct (edge_type_text (lk_type l)) as [E1 E2].
        split; [exact E2|]. rewrite E1. reflexivity. }
    rewrite (fix_cell_list _ NoLag (fun s => Lag (value s)) (map lk_lag ls)); [|apply Hm|].
    2:{ intros x Hx. apply in_map_iff in Hx as (l & <- & Hl). destruct (Hw' l Hl) as (_ & _ & H3 & H4).
        split; [exact H3|]. rewrite H4. reflexivity. }
    cbn [bind]. eexists. split; [reflexivity|]. cbn [p_id p_preds p_types p_lags p_volume p_reqs].
    repeat (split; [reflexivity|]). split; [|congruence]. intros _. rewrite map_id. split; [reflexivity|]. split.
    + rewrite map_map. apply map_ext. intros l. rewrite (proj1 (edge_type_text (lk_type l))). reflexivity.
    + apply map_map.
Qed.
Print Assumptions cells_are_read.
(** A work without links may have its three cells absent, empty or with the text nan. *)
Definition blank (cell : option str) : Prop := cell = None \/ cell = Some (lit "") \/ cell = Some (lit "nan").
Theorem blank_cells_are_read (to_float : str -> res Q) (w : work) (preds types lags : option str) :
  wk_links w = [] -> blank preds -> blank types -> blank lags ->
  exists r, preprocess to_float (Cells (wk_id w) preds types lags (wk_volume w) (wk_reqs w)) = Ok r
    /\ p_id r = wk_id w /\ p_volume r = wk_volume w /\ p_reqs r = wk_reqs w
    /\ p_preds r = [lit "-1"] /\ p_types r = [FS] /\ p_lags r = [NoLag].
Proof.
  intros _ Hp Ht Hl. assert (E : forall A (cast : str -> res A) none_elem cell, blank cell -> fix_cell cast none_elem cell = Ok [none_elem]).
  { intros A cast none_elem cell [->|[->| ->]]; reflexivity. }
  unfold preprocess. cbn [c_id c_preds c_types c_lags c_volume c_reqs]. rewrite !E by assumption. cbn [bind].
  eexists. split; [reflexivity|]. cbn. auto 10.
Qed.
Print Assumptions blank_cells_are_read.
Example blank_cells_are_read_ex :
  exists r, preprocess (fun _ => Err ValueErr) (Cells (lit "a") (Some (lit "")) (Some (lit "nan")) None 4 None) = Ok r /\ p_preds r = [lit "-1"].
Proof. eexists. split; [vm_compute; reflexivity|reflexivity]. Qed.

(** Finding: a name that looks like a number with a point is cut to its integral part, and
    zeros in front of a number are dropped, where it is named as a predecessor, though not
    where it is the id of a work. *)
Theorem numbers_in_names_change :
  normalize_if_number (lit "1.2") = Ok (lit "1") /\ normalize_if_number (lit "007") = Ok (lit "7")
  /\ normalize_if_number (lit "9007199254740993") = Ok (lit "9007199254740992").
Proof. vm_compute. auto. Qed.
Print Assumptions numbers_in_names_change.
(** No name that is a number with a point survives. *)
Lemma show_go_digits : forall fuel n acc, 0 <= n -> (forall c, In c acc -> c <> "."%char) ->
  forall c, In c (show_go fuel n acc) -> c <> "."%char.
Proof.
  assert (Hd : forall m, 0 <= m <= 9 -> digit m <> "."%char).
  { intros m Hm. assert (m = 0 \/ m = 1 \/ m = 2 \/ m = 3 \/ m = 4 \/ m = 5 \/ m = 6 \/ m = 7 \/ m = 8 \/ m = 9) as H by lia.
    repeat destruct H as [->|H]; [..|subst m]; vm_compute; discriminate. }
  induction fuel as [|f IH]; intros n acc Hn Hacc c Hc; [auto|]. cbn [show_go] in Hc.
  destruct (Z.ltb_spec n 10).
  - destruct Hc as [<-|Hc]; [apply Hd; lia|auto].
  - apply (IH (n / 10) (digit (n mod 10) :: acc)) with (c := c); [apply Z.div_pos; lia| |exact Hc].
    intros c' [<-|Hc']; [|auto]. apply Hd. assert (H0 := Z.mod_pos_bound n 10 ltac:(lia)). lia.
Qed.
Lemma int_float_nonneg n k v : 0 <= n -> int_float n k = Ok v -> 0 <= v.
Proof.
  intros Hn. unfold int_float. destruct (Z.eqb_spec n 0); [intros [= <-]; lia|]. cbv zeta.
  assert (RD : forall a b, 0 <= a -> 0 <= b -> 0 <= round_div a b).
  { intros a b Ha Hb. unfold round_div. assert (0 <= a / b).
    { destruct (Z.eq_dec b 0) as [->|]; [rewrite Zdiv_0_r; lia|apply Z.div_pos; lia]. }
    destruct (_ <? _); [lia|]. destruct (_ <? _); [lia|]. destruct (Z.even _); lia. }
  match goal with |- context [0 <=? (if ?c then ?x else ?y)] => generalize (if c then x else y) end. intros e.
  destruct (0 <=? e); match goal with |- context [if ?b then _ else _] => destruct b end; try discriminate; intros [= <-].
  - apply Z.mul_nonneg_nonneg; [|apply Z.pow_nonneg; lia]. apply RD; [lia|]. apply Z.mul_nonneg_nonneg; apply Z.pow_nonneg; lia.
  - set (m := round_div _ _). assert (Hm : 0 <= m).
    { apply RD; [apply Z.mul_nonneg_nonneg; [lia|apply Z.pow_nonneg; lia]|apply Z.pow_nonneg; lia]. }
    assert (0 <= 2 ^ (- e)) by (apply Z.pow_nonneg; lia).
    destruct (Z.eq_dec (2 ^ (- e)) 0) as [->|]; [rewrite Zdiv_0_r; lia|apply Z.div_pos; lia].
Qed.
Theorem dotted_names_change (a b : str) : forallb is_digit a = true -> forallb is_digit b = true -> a ++ b <> [] ->
  normalize_if_number (a ++ "."%char :: b) <> Ok (a ++ "."%char :: b).
Proof.
  intros Ha Hb Hne C. unfold normalize_if_number in C.
  assert (E : drop_dot (a ++ "."%char :: b) = a ++ b).
  { clear -Ha. induction a as [|c a IH]; cbn [app drop_dot]; [destruct (ascii_dec "." "."); [reflexivity|congruence]|].
    cbn in Ha. apply andb_true_iff in Ha as [Hc Hd]. destruct (ascii_dec c ".") as [->|]; [discriminate|]. rewrite IH by exact Hd. reflexivity. }
  assert (Hd : forallb is_digit (a ++ b) = true) by (rewrite forallb_app, Ha, Hb; reflexivity).
  rewrite E in C. assert (isdigit (a ++ b) = true) as Ei by (destruct (a ++ b); [congruence|exact Hd]). rewrite Ei in C.
  destruct (int_float _ _) as [v|] eqn:Ev; [|discriminate]. cbn [bind] in C. injection C as C.
  apply int_float_nonneg in Ev; [|apply value_nonneg, Hd].
  apply (show_go_digits (S (Z.to_nat (Z.log2 v))) v [] Ev) with (c := "."%char); [intros c []| |reflexivity].
  fold (show v). rewrite C. apply in_or_app. right. left. reflexivity.
Qed.
Print Assumptions dotted_names_change.

(** ** C99 *)
(** The links between works of the table. *)
Definition precedes (table : list work) (a b : str) : Prop :=
  In a (map wk_id table) /\ exists w l, In w table /\ In l (wk_links w) /\ wk_id w = b /\ lk_pred l = a.
(** The edges that a row stands for: one for each of its links that [keep] keeps and whose
    predecessor is in the table. Works are numbered as in the table. *)
Definition edges_of (value : str -> Q) (names : list str) (keep : str -> str -> bool) (w : work) : list edge :=
  map (fun l => Ed (num names (lk_pred l)) (num names (wk_id w))
                   (Z.quot (Qnum (value (lk_lag l))) (Zpos (Qden (value (lk_lag l))))) (lk_type l))
      (filter (fun l => str_mem (lk_pred l) names && keep (lk_pred l) (wk_id w)) (wk_links w)).

Definition to_zrow (value : str -> Q) (w : work) : zrow :=
  Zrow (wk_id w)
       (match wk_links w with
        | [] => [Quad NONE_ELEM FS NoLag INF]
        | ls => map (fun l => Quad (lk_pred l) (lk_type l) (Lag (value (lk_lag l))) INF) ls
        end) (wk_volume w) (wk_reqs w).
Lemma repeat_map {A B} (x : B) (l : list A) : repeat x (List.length l) = map (fun _ => x) l.
Proof. induction l as [|y l IH]; [reflexivity|]. cbn. rewrite IH. reflexivity. Qed.
Lemma read_row to_float value w : writable to_float value w ->
  exists r, preprocess to_float (written w) = Ok r /\ no_changes r = unz (to_zrow value w).
Proof.
  intros Hw. destruct (cells_are_read to_float value w Hw) as (r & E & E1 & E2 & E3 & H1 & H2). exists r. split; [exact E|].
  unfold no_changes, unz, to_zrow. cbn [z_id z_links z_volume z_reqs]. rewrite E1, E2, E3.
  destruct (wk_links w) as [|l ls] eqn:El.
  - destruct (H2 eq_refl) as (-> & -> & ->). reflexivity.
  - destruct (H1 ltac:(congruence)) as (-> & -> & ->). rewrite !map_map. cbn [q_pred q_type q_lag q_count].
    rewrite repeat_map, map_map. reflexivity.
Qed.
Lemma follows_precedes value table a b : ~ In NONE_ELEM (map wk_id table) ->
  follows (map (to_zrow value) table) a b <-> precedes table a b.
Proof.
  intros Hno. unfold follows, precedes. rewrite map_map. cbn [z_id to_zrow]. split.
  - intros (Ha & z & q & Hz & Hq & Eb & Ea). split; [exact Ha|]. apply in_map_iff in Hz as (w & <- & Hw).
    cbn [to_zrow z_links z_id] in Hq, Eb. destruct (wk_links w) as [|l ls] eqn:El.
    + destruct Hq as [<-|[]]. cbn [q_pred] in Ea. exfalso. apply Hno. rewrite Ea. exact Ha.
    + rewrite <- El in Hq. apply in_map_iff in Hq as (l' & <- & Hl'). exists w, l'. auto.
  - intros (Ha & w & l & Hw & Hl & Eb & Ea). split; [exact Ha|]. exists (to_zrow value w).
    exists (Quad (lk_pred l) (lk_type l) (Lag (value (lk_lag l))) INF). split; [apply in_map; exact Hw|].
    split; [|auto]. cbn [to_zrow z_links]. destruct (wk_links w) as [|l0 ls] eqn:El; [destruct Hl|].
    apply in_map_iff. exists l. auto.
Qed.
Lemma clos_trans_iff {A} (R R' : A -> A -> Prop) : (forall a b, R a b <-> R' a b) -> forall a b, clos_trans A R a b -> clos_trans A R' a b.
Proof. intros H a b P. induction P as [a b E|a b c _ I1 _ I2]; [apply t_step, H, E|exact (t_trans _ _ _ _ _ I1 I2)]. Qed.
Lemma clos_rt_iff {A} (R R' : A -> A -> Prop) : (forall a b, R a b <-> R' a b) -> forall a b, clos_refl_trans A R a b -> clos_refl_trans A R' a b.
Proof. intros H a b P. induction P as [a b E|a|a b c _ I1 _ I2]; [apply rt_step, H, E|apply rt_refl|exact (rt_trans _ _ _ _ _ I1 I2)]. Qed.

(** The requirements of a work whose row gives them: the kinds for which both limits are
    given, with 0 < least <= greatest, in the order of the kinds. *)
Definition required (kinds : list nat) (least greatest volume : list (nat * Z)) : list req :=
  flat_map (fun k => match dict_get least k, dict_get greatest k, dict_get volume k with
                     | Some lo, Some hi, Some v => if (0 <? lo) && (lo <=? hi) then [Req k v lo hi] else []
                     | _, _, _ => []
                     end) kinds.
Definition reqs_given (kinds : list nat) (w : work) (l : list req) : Prop :=
  match wk_reqs w with
  | None => True
  | Some (least, greatest, volume) => l = required kinds least greatest volume /\
      forall k v lo hi, In (Req k v lo hi) l <->
        In k kinds /\ dict_get least k = Some lo /\ dict_get greatest k = Some hi /\ 0 < lo <= hi /\ dict_get volume k = Some v
  end.
(** The volume is given for every such kind. *)
Definition volumes_given (kinds : list nat) (w : work) : Prop :=
  match wk_reqs w with
  | None => True
  | Some (least, greatest, volume) =>
      forall k lo hi, In k kinds -> dict_get least k = Some lo -> dict_get greatest k = Some hi -> 0 < lo <= hi ->
        exists v, dict_get volume k = Some v
  end.
Lemma given_reqs_spec least greatest volume : forall kinds,
  (forall k lo hi, In k kinds -> dict_get least k = Some lo -> dict_get greatest k = Some hi -> 0 < lo <= hi ->
        exists v, dict_get volume k = Some v) ->
  exists l, given_reqs kinds least greatest volume = Ok l /\ l = required kinds least greatest volume /\ forall k v lo hi, In (Req k v lo hi) l <->
        In k kinds /\ dict_get least k = Some lo /\ dict_get greatest k = Some hi /\ 0 < lo <= hi /\ dict_get volume k = Some v.
Proof.
  induction kinds as [|k0 ks IH]; intros H.
  - exists []. split; [reflexivity|]. split; [reflexivity|]. intros k v lo hi. split; [intros []|intros ([] & _)].
  - destruct IH as (l & E & Er & Hl); [intros; eapply H; eauto; right; assumption|]. unfold required in *. cbn [given_reqs flat_map].
    assert (Hskip : (forall lo hi, dict_get least k0 = Some lo -> dict_get greatest k0 = Some hi -> ~ 0 < lo <= hi) ->
      forall k v lo hi, In (Req k v lo hi) l <->
        In k (k0 :: ks) /\ dict_get least k = Some lo /\ dict_get greatest k = Some hi /\ 0 < lo <= hi /\ dict_get volume k = Some v).
    { intros Hs k v lo hi. rewrite Hl. split; [intros (H1 & H2); split; [right; exact H1|exact H2]|].
      intros ([<-|H1] & H2); [|tauto]. exfalso. destruct H2 as (E1 & E2 & H2 & _). exact (Hs lo hi E1 E2 H2). }
    destruct (dict_get least k0) as [lo0|] eqn:E1; [|exists l; split; [exact E|split; [exact Er|apply Hskip; intros; congruence]]].
    destruct (dict_get greatest k0) as [hi0|] eqn:E2; [|exists l; split; [exact E|split; [exact Er|apply Hskip; intros; congruence]]].
    destruct ((0 <? lo0) && (lo0 <=? hi0)) eqn:Eb.
    + apply andb_true_iff in Eb as [B1 B2]. assert (B1' := B1). assert (B2' := B2). apply Z.ltb_lt in B1'. apply Z.leb_le in B2'.
      destruct (H k0 lo0 hi0 (or_introl eq_refl) E1 E2 ltac:(lia)) as (v0 & E3). rewrite E3, E. cbn [bind].
      exists (Req k0 v0 lo0 hi0 :: l). split; [reflexivity|]. split; [rewrite <- Er; reflexivity|]. intros k v lo hi. cbn [In]. rewrite Hl. split.
      * intros [Eq|(H1 & H2)]; [injection Eq as -> -> -> ->; split; [left; reflexivity|]; repeat split; assumption|].
        split; [right; exact H1|exact H2].
      * intros ([<-|H1] & H2 & H3 & H4 & H5); [left; congruence|right; tauto].
    + exists l. split; [exact E|]. split; [rewrite ?Eb; destruct (dict_get volume k0); exact Er|]. apply Hskip. intros lo hi [= <-] [= <-] C. apply andb_false_iff in Eb.
      rewrite Z.ltb_ge, Z.leb_gt in Eb. lia.
Qed.

(** A table of works with distinct ids: the table is read, and a graph is made from it. It
    has a node for each row, and a start before and a finish after all of them; between the
    works it has exactly one edge for each link of the table to a work of the table, with its
    type and lag, but for the links that were taken away to break loops. Those were on loops;
    if the links have no loop, none is taken away. Exactly the works without dependency
    predecessors (successors) are linked to the start (finish). Each work has its volume and
    requirements; works without requirements are service units. *)
Theorem table_makes_graph
  (to_float : str -> res Q) (value : str -> Q)
  (topological_sort : list nat -> list (nat * nat) -> option (list nat)) (set_order : list nat -> list nat)
  (kinds : list nat) (find_work_resources : str -> Z -> list req) (start finish : nat) (table : list work) :
  topological_sort_ok topological_sort -> (forall l, Permutation (set_order l) l) ->
  table <> [] -> NoDup (map wk_id table) -> ~ In (lit "-1") (map wk_id table) ->
  (forall w, In w table -> writable to_float value w /\ volumes_given kinds w) ->
  (List.length table <= start)%nat -> (List.length table <= finish)%nat -> start <> finish ->
  let names := map wk_id table in
  exists keep w own es ef middle,
    parse to_float topological_sort set_order kinds find_work_resources start finish (map written table) = Ok (Ends w)
    /\ wg_start w = start /\ wg_finish w = finish
    /\ wg_nodes w = start :: middle ++ [finish] /\ Permutation middle (map (num names) names)
    /\ topological (linked (wg_graph w)) (wg_nodes w)
    /\ g_edges (wg_graph w) = own ++ es ++ ef
    /\ Permutation own (flat_map (edges_of value names keep) table)
    /\ (forall a b, keep a b = false -> precedes table a b -> clos_refl_trans str (precedes table) b a)
    /\ ((forall a, ~ clos_trans str (precedes table) a a) -> forall a b, precedes table a b -> keep a b = true)
    /\ (forall e, In e es <-> exists x, In x names /\ e = Ed start (num names x) 0 FS
          /\ forall e', In e' own -> is_dependency (e_type e') = true -> e_to e' <> num names x)
    /\ (forall e, In e ef <-> exists x, In x names /\ e = Ed (num names x) finish 0 FS
          /\ forall e', In e' own -> is_dependency (e_type e') = true -> e_from e' <> num names x)
    /\ (forall x, In x table -> let u := g_unit (wg_graph w) (num names (wk_id x)) in
          u_volume u = wk_volume x /\ (u_service u = true <-> u_reqs u = [])
          /\ reqs_given kinds x (u_reqs u)
          /\ (wk_reqs x = None -> u_reqs u = find_work_resources (wk_id x) (wk_volume x)))
    /\ NoDup es /\ NoDup ef
    /\ (forall k, (List.length table <= k)%nat -> g_unit (wg_graph w) k = WU true [] 0).
Proof.
  intros Hsort Hset Hne Hnd Hno Hw Hs Hf Hsf names.
  set (zs := map (to_zrow value) table).
  assert (Ez : map z_id zs = names) by (unfold zs, names; rewrite map_map; reflexivity).
  destruct (break_loops_spec zs) as (keep & Eb & Hfree & _ & Hgone & Hall); [rewrite Ez; exact Hnd|rewrite Ez; exact Hno|].
  set (zs' := map (fun z => with_links z (fun q => keep (q_pred q) (z_id z))) zs) in *.
  assert (Ez' : map z_id zs' = names) by (unfold zs'; rewrite map_map; cbn; exact Ez).
  assert (El : List.length zs' = List.length table) by (unfold zs', zs; rewrite !map_length; reflexivity).
  assert (Hreqs : forall x, In x table -> exists l, reqs_of kinds find_work_resources (unz (to_zrow value x)) = Ok l /\ reqs_given kinds x l
            /\ (wk_reqs x = None -> l = find_work_resources (wk_id x) (wk_volume x))).
  { intros x Hx. destruct (Hw x Hx) as [_ Hv]. unfold reqs_of, reqs_given, volumes_given in *. cbn [unz to_zrow p_reqs p_id p_volume z_reqs z_id z_volume].
    destruct (wk_reqs x) as [[[least greatest] volume]|].
    - destruct (given_reqs_spec least greatest volume kinds Hv) as (l & E & H). exists l. split; [exact E|]. split; [exact H|discriminate].
    - exists (find_work_resources (wk_id x) (wk_volume x)). auto. }
  destruct (work_graph_spec topological_sort set_order kinds find_work_resources start finish Hsort Hset zs') as
    (w & own & es & ef & middle & W0 & W1 & W2 & W3 & W4 & W5 & W6 & W7 & W8 & W9 & W10 & W11 & W12 & W13).
  { rewrite Ez'. exact Hnd. }
  { intros C. rewrite C in El. destruct table; [congruence|discriminate]. }
  { exact Hfree. }
  { intros z Hz. unfold zs', zs in Hz. rewrite map_map in Hz. apply in_map_iff in Hz as (x & <- & Hx).
    destruct (Hreqs x Hx) as (l & E & _). exists l. exact E. }
  { rewrite El. exact Hs. }
  { rewrite El. exact Hf. }
  { exact Hsf. }
  rewrite Ez', El in *.
  assert (Hlt : forall k, (k < List.length table)%nat <-> exists x, In x names /\ k = num names x).
  { assert (L : List.length names = List.length table) by (unfold names; apply map_length).
    intros k. split.
    - intros Hk. exists (nth k names []). rewrite <- L in Hk. split; [apply nth_In; exact Hk|symmetry; apply num_nth; assumption].
    - intros (x & Hx & ->). rewrite <- L. apply num_lt, Hx. }
  exists keep, w, own, es, ef, middle.
  split; [|split; [exact W1|split; [exact W2|split; [exact W3|split; [|split; [exact W5|split; [exact W6|]]]]]]].
  - unfold parse.
    assert (E1 : exists rows, map_res (preprocess to_float) (map written table) = Ok rows /\ map no_changes rows = map unz zs).
    { unfold zs. clear -Hw. induction table as [|x t IH]; [exists []; auto|]. 
      destruct IH as (rows & E & En); [intros; apply Hw; right; assumption|].
      destruct (read_row to_float value x (proj1 (Hw x (or_introl eq_refl)))) as (r & Er & Enr).
      exists (r :: rows). cbn [map map_res]. rewrite Er. cbn [bind]. rewrite E. cbn [bind map]. rewrite Enr, En. auto. }
    destruct E1 as (rows & E1 & E2). rewrite E1. cbn [bind]. rewrite E2, Eb. cbn [bind]. exact W0.
  - rewrite W4. unfold names. rewrite num_names by exact Hnd. rewrite map_length. reflexivity.
  - split; [|split; [|split; [|split; [|split; [|split; [|split; [exact W11|split; [exact W12|exact W13]]]]]]]].
    + rewrite W7. unfold zs', zs. rewrite map_map, flat_map_concat_map, flat_map_concat_map, map_map.
      assert (E : map (fun x => row_edges names (with_links (to_zrow value x) (fun q => keep (q_pred q) (z_id (to_zrow value x))))) table
                  = map (edges_of value names keep) table); [|rewrite E; apply Permutation_refl].
      apply map_ext_in. intros x Hx. unfold row_edges, with_links, edges_of, to_zrow. cbn [z_id z_links].
      destruct (wk_links x) as [|l ls] eqn:Elk.
      * cbn [filter q_pred]. destruct (keep NONE_ELEM (wk_id x)); [|reflexivity]. cbn [filter q_pred].
        assert (str_mem NONE_ELEM names = false) as -> by (apply str_mem_false; exact Hno). reflexivity.
      * generalize (l :: ls). clear. intros ls. induction ls as [|l ls IH]; [reflexivity|]. cbn [map filter q_pred].
        destruct (keep (lk_pred l) (wk_id x)); cbn [filter q_pred]; rewrite ?andb_true_r, ?andb_false_r;
          [destruct (str_mem (lk_pred l) names)|]; cbn [map]; rewrite ?IH; reflexivity.
    + intros a b Hk Hp. assert (Hp' := Hp). apply (follows_precedes value) in Hp' as (_ & z & q & Hz & Hq & <- & <-); [|exact Hno].
      destruct (Hgone z q Hz Hq Hk) as [_ P]. eapply clos_rt_iff; [|exact P]. intros. apply follows_precedes, Hno.
    + intros Hac a b Hp. assert (Hfr : loop_free zs).
      { intros c Hc. apply (Hac c). eapply clos_trans_iff; [|exact Hc]. intros. apply follows_precedes, Hno. }
      specialize (Hall Hfr). apply (follows_precedes value) in Hp as (_ & z & q & Hz & Hq & <- & <-); [|exact Hno]. fold zs in Hz.
      destruct (keep (q_pred q) (z_id z)) eqn:Ek; [reflexivity|exfalso].
      unfold zs' in Hall. rewrite <- (map_id zs) in Hall at 2. apply map_ext_in_iff with (a := z) in Hall; [|exact Hz].
      apply (f_equal z_links) in Hall. cbn [with_links z_links] in Hall. rewrite <- Hall in Hq. apply filter_In in Hq as [_ Hq]. congruence.
    + intros e. rewrite W8. split.
      * intros (k & Hk & -> & H). apply Hlt in Hk as (x & Hx & ->). exists x. auto.
      * intros (x & Hx & -> & H). exists (num names x). split; [apply Hlt; exists x; auto|auto].
    + intros e. rewrite W9. split.
      * intros (k & Hk & -> & H). apply Hlt in Hk as (x & Hx & ->). exists x. auto.
      * intros (x & Hx & -> & H). exists (num names x). split; [apply Hlt; exists x; auto|auto].
    + intros x Hx. cbv zeta. set (z := with_links (to_zrow value x) (fun q => keep (q_pred q) (z_id (to_zrow value x)))).
      assert (Hz : In z zs') by (unfold zs', zs; rewrite map_map; apply in_map_iff; exists x; auto).
      change (wk_id x) with (z_id z). rewrite (W10 z Hz). unfold the_unit. cbn [u_volume u_service u_reqs].
      destruct (Hreqs x Hx) as (l & E & H1 & H2). unfold the_reqs.
      change (reqs_of kinds find_work_resources (unz z)) with (reqs_of kinds find_work_resources (unz (to_zrow value x))). rewrite E.
      split; [reflexivity|]. split; [destruct l; split; congruence|]. split; [exact H1|exact H2].
Qed.
Print Assumptions table_makes_graph.

(** ** Concrete cases *)
(** A sorting: again and again the first node left without predecessors among those left. *)
Definition free (es : list (nat * nat)) (rem : list nat) (x : nat) : bool :=
  forallb (fun e => negb (Nat.eqb (snd e) x && mem (fst e) rem)) es.
Fixpoint kahn (fuel : nat) (rem : list nat) (es : list (nat * nat)) : option (list nat) :=
  match rem, fuel with
  | [], _ => Some []
  | _, O => None
  | _, S f => match find (free es rem) rem with
              | None => None
              | Some x => option_map (cons x) (kahn f (remove Nat.eq_dec x rem) es)
              end
  end.
Definition kahn_sort (nodes : list nat) (es : list (nat * nat)) : option (list nat) := kahn (List.length nodes) nodes es.
Lemma remove_perm x l : NoDup l -> In x l -> Permutation (x :: remove Nat.eq_dec x l) l.
Proof.
  intros Hnd Hx. apply NoDup_Permutation.
  - constructor; [apply remove_In|]. clear Hx. induction Hnd as [|y l Hy Hnd IH]; cbn; [constructor|].
    destruct (Nat.eq_dec x y); [exact IH|]. constructor; [|exact IH]. intros C. apply in_remove in C. tauto.
  - exact Hnd.
  - intros y. split.
    + intros [<-|H]; [exact Hx|]. apply in_remove in H. tauto.
    + intros H. destruct (Nat.eq_dec y x); [left; auto|right; apply in_in_remove; assumption].
Qed.
Lemma kahn_ok : topological_sort_ok kahn_sort.
Proof.
  assert (G : forall es, acyclic (fun a b => In (a, b) es) -> forall fuel rem, NoDup rem -> (List.length rem <= fuel)%nat ->
    exists l, kahn fuel rem es = Some l /\ Permutation l rem /\ topological (fun a b => In (a, b) es) l).
  { intros es Hac. induction fuel as [|f IH]; intros rem Hnd Hf.
    - destruct rem; [|cbn in Hf; lia]. exists []. split; [reflexivity|]. split; [constructor|]. intros x y _ [].
    - destruct rem as [|x0 rem0]; [exists []; split; [reflexivity|]; split; [constructor|]; intros x y _ []|].
      cbn [kahn]. remember (x0 :: rem0) as rem eqn:Er.
      destruct (find (free es rem) rem) as [x|] eqn:Ef.
      + apply find_some in Ef as [Hx Hfree].
        assert (P := remove_perm x rem Hnd Hx).
        assert (Hnd' : NoDup (x :: remove Nat.eq_dec x rem)) by (eapply Permutation_NoDup; [symmetry; exact P|exact Hnd]).
        apply NoDup_cons_iff in Hnd' as [Hnx Hnd''].
        destruct (IH (remove Nat.eq_dec x rem) Hnd'') as (l & El & Pl & Tl).
        { apply Permutation_length in P. cbn in P. lia. }
        rewrite El. exists (x :: l). split; [reflexivity|]. split; [rewrite Pl; exact P|].
        intros a b Hab Ha Hb.
        assert (Hnb : b <> x).
        { intros ->. unfold free in Hfree. rewrite forallb_forall in Hfree. specialize (Hfree _ Hab). cbn in Hfree.
          rewrite Nat.eqb_refl in Hfree. assert (C : mem a rem = true); [|rewrite C in Hfree; discriminate].
          apply mem_in. eapply Permutation_in; [exact P|]. destruct Ha as [<-|Ha]; [left; reflexivity|right; eapply Permutation_in; eassumption]. }
        destruct Hb as [Hb|Hb]; [congruence|]. destruct Ha as [<-|Ha].
        * apply in_split in Hb as (l1 & l2 & ->). exists [], l1, l2. reflexivity.
        * destruct (Tl a b Hab Ha Hb) as (p & q & r & ->). exists (x :: p), q, r. reflexivity.
      + exfalso. apply (acyclic_minimal (fun a b => In (a, b) es) rem Hac); [rewrite Er; discriminate|].
        intros x Hx. apply find_none with (x := x) in Ef; [|exact Hx]. unfold free in Ef.
        assert (Hex : exists e, In e es /\ Nat.eqb (snd e) x && mem (fst e) rem = true).
        { clear -Ef. induction es as [|e es IH]; cbn in Ef; [discriminate|]. destruct (Nat.eqb (snd e) x && mem (fst e) rem) eqn:E.
          - exists e. split; [left; reflexivity|exact E].
          - destruct (IH Ef) as (e' & H1 & H2). exists e'. split; [right; exact H1|exact H2]. }
        destruct Hex as ((a & b) & He & E). cbn in E. apply andb_true_iff in E as [E1 E2]. apply Nat.eqb_eq in E1. subst b.
        apply mem_in in E2. exists a. auto. }
  intros nodes es Hnd _ Hac. apply G; auto.
Qed.

(** Reading lags of one digit. *)
Definition one_digit (s : str) : res Q :=
  match s with [c] => if is_digit c then Ok (digit_value c # 1) else Err ValueErr | _ => Err ValueErr end.
Definition one_value (s : str) : Q := match one_digit s with Ok q => q | Err _ => 0%Q end.
Definition no_resources (_ : str) (_ : Z) : list req := [].
Definition ex_parse (table : list cells) := parse one_digit kahn_sort (fun l => rev l) [7%nat] no_resources 8 9 table.

Definition ex_table : list work :=
  [Wk (lit "b") [Lk (lit "12") FFS (lit "2"); Lk (lit "gone") FS (lit "0"); Lk (lit "c") SS (lit "1")] 5
      (Some ([(7%nat, 1)], [(7%nat, 3)], [(7%nat, 40)]));
   Wk (lit "12") [] 4 (Some ([(7%nat, 0)], [(7%nat, 3)], []));
   Wk (lit "c") [Lk (lit "b") FS (lit "0")] 3 None].
(** Three works with a loop between b and c, a link to a work that is not in the table, and a
    work with a range of workers from 0. *)
Example table_makes_graph_ex :
  NoDup (map wk_id ex_table) /\ ~ In (lit "-1") (map wk_id ex_table)
  /\ (forall w, In w ex_table -> writable one_digit one_value w /\ volumes_given [7%nat] w)
  /\ match ex_parse (map written ex_table) with
     | Ok (Ends w) => wg_nodes w = [8; 1; 0; 2; 9]%nat
                      /\ g_edges (wg_graph w) = [Ed 1 0 2 FFS; Ed 0 2 0 FS; Ed 8 1 0 FS; Ed 2 9 0 FS]%nat
                      /\ g_unit (wg_graph w) 0 = WU false [Req 7 40 1 3] 5
                      /\ g_unit (wg_graph w) 1 = WU true [] 4
     | _ => False
     end.
Proof.
  split; [|split; [|split]].
  - vm_compute. repeat constructor; cbn; intuition discriminate.
  - vm_compute. intuition discriminate.
  - assert (Hel : forall s, In s [lit "12"; lit "gone"; lit "c"; lit "b"; lit "0"; lit "1"; lit "2"] -> element s).
    { intros s Hs. unfold element, no_comma. cbn in Hs. repeat destruct Hs as [<-|Hs]; [..|destruct Hs]; cbn; intuition discriminate. }
    assert (Hst : forall s, In s [lit "12"; lit "gone"; lit "c"; lit "b"] -> stable_name s).
    { intros s Hs. cbn in Hs. destruct Hs as [<-|[<-|[<-|[<-|[]]]]].
      - right. split; [|vm_compute; reflexivity]. split; [reflexivity|]. right. discriminate.
      - left. reflexivity.
      - left. reflexivity.
      - left. reflexivity. }
    intros w Hw. cbn in Hw. destruct Hw as [<-|[<-|[<-|[]]]]; split.
    + intros l Hl. cbn in Hl. repeat destruct Hl as [<-|Hl]; [..|destruct Hl]; cbn [lk_pred lk_lag];
        (split; [apply Hel|split; [apply Hst|split; [apply Hel|reflexivity]]]); cbn; auto 10.
    + intros k lo hi [<-|[]] _ _ _. eexists. reflexivity.
    + intros l Hl. destruct Hl.
    + intros k lo hi [<-|[]] [= <-] _ H. lia.
    + intros l Hl. cbn in Hl. repeat destruct Hl as [<-|Hl]; [..|destruct Hl]; cbn [lk_pred lk_lag];
        (split; [apply Hel|split; [apply Hst|split; [apply Hel|reflexivity]]]); cbn; auto 10.
    + exact I.
  - vm_compute. auto.
Qed.

(** Finding: a work may be linked to another work than the one named. The predecessor "1.1" of
    the third work is read as "1". *)
Theorem link_to_wrong_work :
  let row id pred := Cells (lit id) (option_map lit pred) None (Some (lit "0")) 1 None in
  match ex_parse [row "1"%string None; row "1.1"%string None; row "2"%string (Some "1.1"%string)] with
  | Ok (Ends w) => In (Ed 0 2 0 FS) (g_edges (wg_graph w)) /\ ~ In 2%nat (children (wg_graph w) 1)
  | _ => False
  end.
Proof. vm_compute. intuition discriminate. Qed.
Print Assumptions link_to_wrong_work.

(** Finding: a link without a lag gets the text '-1', which the schedulers read as the lag -1:
    the work may start one unit of time before its predecessor is finished. *)
Theorem missing_lag_is_negative (to_float : str -> res Q) (c : cells) (r : prow) :
  preprocess to_float c = Ok r -> c_lags c = None -> map int_lag (p_lags r) = [-1].
Proof.
  unfold preprocess. intros E El. rewrite El in E.
  destruct (fix_cell normalize_if_number NONE_ELEM (c_preds c)); [|discriminate].
  destruct (fix_cell edge_type_of FS (c_types c)); [|discriminate]. cbn in E. injection E as <-. reflexivity.
Qed.
Print Assumptions missing_lag_is_negative.
Theorem missing_lag_in_graph :
  match ex_parse [Cells (lit "a") None None None 1 None; Cells (lit "b") (Some (lit "a")) None None 1 None] with
  | Ok (Ends w) => In (Ed 0 1 (-1) FS) (g_edges (wg_graph w))
  | _ => False
  end.
Proof. vm_compute. auto. Qed.
Print Assumptions missing_lag_in_graph.
(** Finding: with two predecessors, and without a column of types, there is an exception. *)
Theorem missing_types_fail :
  ex_parse [Cells (lit "a") None None None 1 None; Cells (lit "b") None None None 1 None;
            Cells (lit "c") (Some (lit "a,b")) None None 1 None] = Err IndexErr.
Proof. vm_compute. reflexivity. Qed.
Print Assumptions missing_types_fail.
