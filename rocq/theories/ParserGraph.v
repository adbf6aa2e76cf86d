(** Proofs about the breaking of loops in a table of works and the making of its graph. *)
From Coq Require Import ZArith QArith List Bool Ascii String Lia Arith Relations Permutation Sorted.
From Verif Require Import TimeModel MomentumModel GraphModel ScheduleSpec Digraph StableSort TopoModel TopoProofs
  TraverseModel TraverseProofs TraverseTheorems ParserModel ParserProofs.
From Verif Require LoopModel LoopTheorems.
Import ListNotations.
Local Open Scope Z_scope.

(** ** Rows whose four lists have the same length *)
(** A link of a row: predecessor, type, lag and count. *)
Record quad := Quad { q_pred : str; q_type : edge_type; q_lag : lag; q_count : Z }.
Record zrow := Zrow { z_id : str; z_links : list quad; z_volume : Z;
                      z_reqs : option (list (nat * Z) * list (nat * Z) * list (nat * Z)) }.
Definition unz (z : zrow) : prow :=
  Prow (z_id z) (map q_pred (z_links z)) (map q_type (z_links z)) (map q_lag (z_links z)) (map q_count (z_links z))
       (z_volume z) (z_reqs z).
Definition with_links (z : zrow) (f : quad -> bool) : zrow := Zrow (z_id z) (filter f (z_links z)) (z_volume z) (z_reqs z).

Lemma zip_links_unz names qs :
  zip_links names (map q_pred qs) (map q_type qs) (map q_lag qs) (map q_count qs)
  = map (fun q => LoopModel.Link (pred_num names (q_pred q)) tt (Some (q_count q))) qs.
Proof. induction qs as [|q qs IH]; [reflexivity|]. cbn. rewrite IH. reflexivity. Qed.
Lemma delete_links_unz stays qs :
  delete_links stays (map q_pred qs) (map q_type qs) (map q_lag qs) (map q_count qs)
  = let k := filter (fun q => stays (q_pred q)) qs in Ok (map q_pred k, map q_type k, map q_lag k, map q_count k).
Proof.
  cbv zeta. induction qs as [|q qs IH]; [reflexivity|]. cbn. destruct (stays (q_pred q)) eqn:E.
  - rewrite IH. cbn. reflexivity.
  - exact IH.
Qed.
Lemma known_links_unz names qs :
  known_links names (map q_pred qs) (map q_type qs) (map q_lag qs)
  = Ok (map (fun q => (q_pred q, q_type q, q_lag q)) (filter (fun q => str_mem (q_pred q) names) qs)).
Proof.
  induction qs as [|q qs IH]; [reflexivity|]. cbn. destruct (str_mem (q_pred q) names) eqn:E; cbn; rewrite IH; reflexivity.
Qed.

Lemma filter_le {A} (f : A -> bool) l : (List.length (filter f l) <= List.length l)%nat.
Proof. induction l as [|x l IH]; cbn; [lia|]. destruct (f x); cbn; lia. Qed.

(** ** Loops *)
(** The links between works of the table, as pairs of names. *)
Definition follows (zs : list zrow) (a b : str) : Prop :=
  In a (map z_id zs) /\ exists z q, In z zs /\ In q (z_links z) /\ z_id z = b /\ q_pred q = a.
Definition loop_free (zs : list zrow) : Prop := forall a, ~ clos_trans str (follows zs) a a.

Lemma broken_removed L cs L' : LoopTheorems.broken L cs L' -> forall u v w, L u v w -> ~ L' u v w ->
  clos_refl_trans nat (LoopTheorems.joined L) v u.
Proof.
  induction 1 as [L L' H|L c u0 v0 L1 cs L' Hc Hl H1 Hb IH]; intros u v w HL HL'.
  - exfalso. apply HL'. apply H. exact HL.
  - assert (Hd : (u = u0 /\ v = v0) \/ ~ (u = u0 /\ v = v0)).
    { destruct (Nat.eq_dec u u0), (Nat.eq_dec v v0); tauto. }
    destruct Hd as [[-> ->]|Hd].
    + destruct Hc as [(x & mid & Ec & _) Hcj]. destruct Hl as [(l1 & l2 & El) _].
      (* around the cycle from v0 to its end, and from its start to u0 *)
      assert (Hwalk : forall l a b, (forall s t, LoopTheorems.consecutive (a :: l ++ [b]) s t -> LoopTheorems.joined L s t) ->
                clos_refl_trans nat (LoopTheorems.joined L) a b).
      { induction l as [|y l IHl]; intros a b Hj.
        - apply rt_step, Hj. exists [], []. reflexivity.
        - apply rt_trans with y.
          + apply rt_step, Hj. exists [], (l ++ [b]). reflexivity.
          + apply IHl. intros s t (p1 & p2 & Ep). apply Hj. exists (a :: p1), p2. cbn. cbn in Ep. rewrite Ep. reflexivity. }
      assert (Hx1 : clos_refl_trans nat (LoopTheorems.joined L) v0 x).
      { destruct l2 as [|y l2] using rev_ind.
        - assert (E : v0 = x); [|rewrite E; apply rt_refl].
          rewrite Ec in El. change (l1 ++ [u0; v0]) with (l1 ++ ([u0] ++ [v0])) in El. rewrite app_assoc in El.
          change (x :: mid ++ [x]) with ((x :: mid) ++ [x]) in El. apply app_inj_tail in El as [_ El]. congruence.
        - clear IHl2. assert (E : y = x).
          { rewrite Ec in El. change (x :: mid ++ [x]) with ((x :: mid) ++ [x]) in El.
            change (l1 ++ u0 :: v0 :: l2 ++ [y]) with (l1 ++ (u0 :: v0 :: l2) ++ [y]) in El. rewrite app_assoc in El.
            apply app_inj_tail in El as [_ El]. congruence. }
          subst y. apply (Hwalk l2). intros s t (p1 & p2 & Ep). apply Hcj. exists (l1 ++ u0 :: p1), p2.
          rewrite El. cbn in Ep. rewrite Ep. rewrite <- app_assoc. reflexivity. }
      assert (Hx2 : clos_refl_trans nat (LoopTheorems.joined L) x u0).
      { destruct l1 as [|y l1].
        - rewrite Ec in El. injection El as -> _. apply rt_refl.
        - rewrite Ec in El. assert (E := El). injection E as <- _. apply (Hwalk l1).
          intros s t (p1 & p2 & Ep). apply Hcj. exists p1, (p2 ++ v0 :: l2). rewrite Ec, El.
          change ((x :: l1) ++ u0 :: v0 :: l2) with (x :: l1 ++ [u0] ++ v0 :: l2). rewrite app_assoc.
          change (x :: (l1 ++ [u0]) ++ v0 :: l2) with ((x :: l1 ++ [u0]) ++ v0 :: l2). rewrite Ep, <- app_assoc. reflexivity. }
      eapply rt_trans; eassumption.
    + assert (HL1 : L1 u v w) by (apply H1; split; assumption). specialize (IH u v w HL1 HL').
      clear -IH H1. induction IH as [a b (w & Hw)|a|a b c I1 J1 I2 J2]; [|apply rt_refl|eapply rt_trans; eassumption].
      apply rt_step. exists w. apply H1 in Hw. tauto.
Qed.

Section Break.
  Variable zs : list zrow.
  Let names := map z_id zs.
  Hypothesis distinct : NoDup names.
  Hypothesis no_none : ~ In NONE_ELEM names.
  Let rows := map (fun z => loop_row names (unz z)) zs.

  Lemma row_links_spec u v w : LoopTheorems.row_links rows u v w <->
    exists z q, In z zs /\ In q (z_links z) /\ q_pred q <> NONE_ELEM /\ u = num names (q_pred q) /\ v = num names (z_id z)
                /\ w = Some (q_count q).
  Proof.
    unfold LoopTheorems.row_links, rows. split.
    - intros (r & l & Hr & Hl & Ev & Ep & Ew). apply in_map_iff in Hr as (z & <- & Hz).
      unfold loop_row, unz in Hl, Ev. cbn [p_id p_preds p_types p_lags p_counts fst snd] in Hl, Ev. rewrite zip_links_unz in Hl.
      apply in_map_iff in Hl as (q & <- & Hq). cbn [LoopModel.ln_pred LoopModel.ln_count] in Ep, Ew. unfold pred_num in Ep.
      destruct (str_eqb (q_pred q) NONE_ELEM) eqn:E; [discriminate|]. apply str_eqb_false in E. injection Ep as <-.
      exists z, q. repeat (split; [solve [auto]|]). auto.
    - intros (z & q & Hz & Hq & Hn & -> & -> & ->). apply str_eqb_false in Hn.
      exists (loop_row names (unz z)), (LoopModel.Link (pred_num names (q_pred q)) tt (Some (q_count q))).
      split; [apply in_map_iff; exists z; auto|]. split.
      + unfold loop_row, unz. cbn [p_id p_preds p_types p_lags p_counts fst snd]. rewrite zip_links_unz. apply in_map_iff. exists q. auto.
      + split; [reflexivity|]. split; [|reflexivity]. cbn. unfold pred_num. rewrite Hn. reflexivity.
  Qed.
  Lemma follows_num a b : follows zs a b ->
    LoopTheorems.joined (LoopTheorems.row_links rows) (num names a) (num names b).
  Proof.
    intros (Ha & z & q & Hz & Hq & <- & <-). exists (Some (q_count q)). apply row_links_spec. exists z, q.
    repeat (split; [solve [auto]|]). split; [|auto]. intros E. apply no_none. rewrite <- E. exact Ha.
  Qed.
  Lemma joined_follows a v : In a names -> LoopTheorems.joined (LoopTheorems.row_links rows) (num names a) v ->
    exists b, In b names /\ v = num names b /\ follows zs a b.
  Proof.
    intros Ha (w & Hw). apply row_links_spec in Hw as (z & q & Hz & Hq & Hn & Eu & Ev & _).
    apply num_inj in Eu; [|exact Ha]. exists (z_id z). split; [apply in_map; exact Hz|]. split; [exact Ev|].
    split; [exact Ha|]. exists z, q. auto.
  Qed.
  Lemma path_follows u v : clos_trans nat (LoopTheorems.joined (LoopTheorems.row_links rows)) u v ->
    forall a, In a names -> u = num names a -> exists b, In b names /\ v = num names b /\ clos_trans str (follows zs) a b.
  Proof.
    induction 1 as [u v H|u m v H1 IH1 H2 IH2]; intros a Ha ->.
    - apply joined_follows in H as (b & Hb & E & F); [|exact Ha]. exists b. split; [exact Hb|]. split; [exact E|]. apply t_step, F.
    - destruct (IH1 a Ha eq_refl) as (c & Hc & E & Pc). destruct (IH2 c Hc E) as (b & Hb & E' & Pb).
      exists b. split; [exact Hb|]. split; [exact E'|]. eapply t_trans; eassumption.
  Qed.
  Lemma path_in u v : clos_trans nat (LoopTheorems.joined (LoopTheorems.row_links rows)) u v -> exists b, In b names /\ v = num names b.
  Proof.
    induction 1 as [u v (w & Hw)|u m v _ _ _ IH2]; [|exact IH2].
    apply row_links_spec in Hw as (z & q & Hz & _ & _ & _ & -> & _). exists (z_id z). split; [apply in_map; exact Hz|reflexivity].
  Qed.
  Lemma acyclic_names : LoopTheorems.acyclic (LoopTheorems.row_links rows) <-> loop_free zs.
  Proof.
    split.
    - intros H a Ha. apply (H (num names a)).
      assert (G : forall x y, clos_trans str (follows zs) x y ->
                clos_trans nat (LoopTheorems.joined (LoopTheorems.row_links rows)) (num names x) (num names y)).
      { clear -no_none. induction 1 as [x y Hf|x y z _ I1 _ I2]; [apply t_step, follows_num, Hf|eapply t_trans; eassumption]. }
      apply G, Ha.
    - intros H v Hv. destruct (path_in _ _ Hv) as (a & Ha & ->).
      destruct (path_follows _ _ Hv a Ha eq_refl) as (b & Hb & E & P). apply num_inj in E; [|exact Ha]. subst b. exact (H a P).
  Qed.
  Lemma rpath_follows u v : clos_refl_trans nat (LoopTheorems.joined (LoopTheorems.row_links rows)) u v ->
    forall a, In a names -> u = num names a -> exists b, In b names /\ v = num names b /\ clos_refl_trans str (follows zs) a b.
  Proof.
    induction 1 as [u v H|u|u m v H1 IH1 H2 IH2]; intros a Ha ->.
    - apply joined_follows in H as (b & Hb & E & F); [|exact Ha]. exists b. split; [exact Hb|]. split; [exact E|]. apply rt_step, F.
    - exists a. split; [exact Ha|]. split; [reflexivity|apply rt_refl].
    - destruct (IH1 a Ha eq_refl) as (c & Hc & E & Pc). destruct (IH2 c Hc E) as (b & Hb & E' & Pb).
      exists b. split; [exact Hb|]. split; [exact E'|]. eapply rt_trans; eassumption.
  Qed.
End Break.

(** Breaking the loops of a table: a link goes or stays by its two works. What is left has no
    loop; what goes was on a loop; the links that go were, each in turn, the lightest on a
    loop of the links left at that moment; without loops nothing goes. *)
Lemma break_loops_spec zs : NoDup (map z_id zs) -> ~ In NONE_ELEM (map z_id zs) ->
  exists keep : str -> str -> bool,
    let zs' := map (fun z => with_links z (fun q => keep (q_pred q) (z_id z))) zs in
    break_loops (map unz zs) = Ok (map unz zs')
    /\ loop_free zs'
    /\ (exists cs, LoopTheorems.broken (LoopTheorems.row_links (map (fun z => loop_row (map z_id zs) (unz z)) zs)) cs
                     (LoopTheorems.row_links (map (fun z => loop_row (map z_id zs) (unz z)) zs')))
    /\ (forall z q, In z zs -> In q (z_links z) -> keep (q_pred q) (z_id z) = false ->
          In (q_pred q) (map z_id zs) /\ clos_refl_trans str (follows zs) (z_id z) (q_pred q))
    /\ (loop_free zs -> zs' = zs).
Proof.
  intros Hnd Hno. set (names := map z_id zs).
  destruct (LoopTheorems.break_loops_correct unit (map (fun z => loop_row names (unz z)) zs))
    as (rows' & cs & keep0 & Eb & _ & Hbr & Hac & Hsame).
  unfold LoopModel.break_loops in Eb.
  destruct (LoopModel.eliminate_cycles _) as [g|] eqn:Eg; [|discriminate]. injection Eb as Er.
  set (keep := fun p id => match pred_num names p with
                           | None => true
                           | Some k => match LoopModel.ids_get g k with None => true | Some vs => mem (num names id) vs end
                           end).
  exists keep. cbv zeta. set (zs' := map (fun z => with_links z (fun q => keep (q_pred q) (z_id z))) zs).
  assert (Enames : map z_id zs' = names).
  { unfold zs', names. rewrite map_map. reflexivity. }
  assert (Erows : rows' = map (fun z => loop_row names (unz z)) zs').
  { rewrite <- Er. unfold zs'. rewrite !map_map. apply map_ext. intros z. unfold loop_row, unz, with_links.
    cbn [p_id p_preds p_types p_lags p_counts z_id z_links fst snd]. f_equal. rewrite !zip_links_unz, LoopTheorems.keep_links_spec.
    induction (z_links z) as [|q qs IH]; [reflexivity|]. cbn [map filter LoopModel.ln_pred]. rewrite IH.
    replace (match pred_num names (q_pred q) with Some p => match LoopModel.ids_get g p with Some vs => mem (num names (z_id z)) vs | None => true end
             | None => true end) with (keep (q_pred q) (z_id z)) by (unfold keep; destruct (pred_num names (q_pred q)); reflexivity).
    destruct (keep (q_pred q) (z_id z)); reflexivity. }
  split; [|split; [|split; [|split]]].
  - unfold break_loops. replace (map p_id (map unz zs)) with names by (unfold names; rewrite map_map; reflexivity).
    cbv zeta. rewrite map_map. rewrite Eg. rewrite map_res_map. unfold zs'. rewrite map_map. apply map_res_ok. intros z Hz.
    unfold unz at 1 2 3 4 5 6. cbn [p_id p_preds p_types p_lags p_counts]. rewrite delete_links_unz. cbn [bind].
    unfold unz, with_links. cbn [z_id z_links z_volume z_reqs p_volume p_reqs].
    reflexivity.
  - apply acyclic_names; [rewrite Enames; exact Hno|]. rewrite Enames, <- Erows. exact Hac.
  - exists cs. fold names. rewrite <- Erows. exact Hbr.
  - intros z q Hz Hq Hk.
    assert (Hn : q_pred q <> NONE_ELEM).
    { intros E. unfold keep, pred_num in Hk. rewrite E, str_eqb_refl in Hk. discriminate. }
    assert (HL : LoopTheorems.row_links (map (fun z => loop_row names (unz z)) zs) (num names (q_pred q)) (num names (z_id z)) (Some (q_count q))).
    { apply row_links_spec. exists z, q. repeat (split; [solve [auto]|]). reflexivity. }
    assert (HL' : ~ LoopTheorems.row_links rows' (num names (q_pred q)) (num names (z_id z)) (Some (q_count q))).
    { rewrite Erows. rewrite <- Enames. intros C. apply row_links_spec in C as (z1 & q1 & Hz1 & Hq1 & Hn1 & E1 & E2 & _).
      rewrite Enames in E1, E2. unfold zs' in Hz1. apply in_map_iff in Hz1 as (z0 & <- & Hz0).
      unfold with_links in Hq1, E2. cbn [z_links z_id] in Hq1, E2. apply filter_In in Hq1 as [Hq1 Hk1].
      apply num_inj in E2; [|apply in_map; exact Hz]. 
      unfold keep, pred_num in Hk, Hk1. apply str_eqb_false in Hn, Hn1. rewrite Hn in Hk. rewrite Hn1 in Hk1.
      rewrite E1 in Hk. rewrite <- E2 in Hk1. congruence. }
    assert (P := broken_removed _ _ _ Hbr _ _ _ HL HL').
    destruct (rpath_follows zs _ _ P (z_id z) (in_map z_id zs z Hz) eq_refl) as (b & Hb & E & Pb).
    symmetry in E. apply num_inj in E; [|exact Hb]. subst b. split; [exact Hb|exact Pb].
  - intros Hf. apply acyclic_names in Hf; [|exact Hno]. specialize (Hsame Hf).
    unfold zs'. rewrite <- (map_id zs) at 2. apply map_ext_in. intros z Hz. unfold with_links. destruct z as [id qs vol rq].
    cbn [z_id z_links z_volume z_reqs] in *. f_equal.
    assert (E : loop_row names (unz (with_links (Zrow id qs vol rq) (fun q => keep (q_pred q) id))) = loop_row names (unz (Zrow id qs vol rq))).
    { rewrite Erows in Hsame. unfold zs' in Hsame. rewrite map_map in Hsame. apply map_ext_in_iff with (a := Zrow id qs vol rq) in Hsame; [exact Hsame|exact Hz]. }
    unfold loop_row, unz, with_links in E. cbn [p_id p_preds p_types p_lags p_counts z_id z_links] in E. apply (f_equal snd) in E. cbn [snd] in E.
    rewrite !zip_links_unz in E. apply (f_equal (@List.length _)) in E. rewrite !map_length in E.
    clear -E. induction qs as [|q qs IH]; [reflexivity|]. cbn [filter List.length] in *.
    assert (List.length (filter (fun q => keep (q_pred q) id) qs) <= List.length qs)%nat by apply filter_le.
    destruct (keep (q_pred q) id); cbn [List.length] in E; [rewrite IH by lia; reflexivity|lia].
Qed.

(** ** The graph of a table *)
Definition row_edges (names : list str) (z : zrow) : list edge :=
  map (fun q => Ed (num names (q_pred q)) (num names (z_id z)) (int_lag (q_lag q)) (q_type q))
      (filter (fun q => str_mem (q_pred q) names) (z_links z)).
(** The sorting of networkx: any topological order of an acyclic graph. *)
Definition topological_sort_ok (f : list nat -> list (nat * nat) -> option (list nat)) : Prop :=
  forall nodes es, NoDup nodes -> (forall a b, In (a, b) es -> In a nodes /\ In b nodes) ->
    acyclic (fun a b => In (a, b) es) ->
    exists l, f nodes es = Some l /\ Permutation l nodes /\ topological (fun a b => In (a, b) es) l.

Lemma path_mono (R R' : nat -> nat -> Prop) : (forall a b, R a b -> R' a b) -> forall a b, path R a b -> path R' a b.
Proof. intros H a b P. induction P as [a b E|a b c _ I1 _ I2]; [apply t_step, H, E|exact (t_trans _ _ _ _ _ I1 I2)]. Qed.

Section WorkGraph.
  Variable topological_sort : list nat -> list (nat * nat) -> option (list nat).
  Variable set_order : list nat -> list nat.
  Variable kinds : list nat.
  Variable find_work_resources : str -> Z -> list req.
  Variables start finish : nat.
  Hypothesis sort_ok : topological_sort_ok topological_sort.
  Hypothesis set_ok : forall l, Permutation (set_order l) l.
  Variable zs : list zrow.
  Let names := map z_id zs.
  Let n := List.length zs.
  Hypothesis distinct : NoDup names.
  Hypothesis nonempty : zs <> [].
  Hypothesis no_loop : loop_free zs.
  Hypothesis reqs_ok : forall z, In z zs -> exists r, reqs_of kinds find_work_resources (unz z) = Ok r.
  Hypothesis fresh1 : (n <= start)%nat.
  Hypothesis fresh2 : (n <= finish)%nat.
  Hypothesis fresh3 : start <> finish.

  Definition the_reqs (z : zrow) : list req :=
    match reqs_of kinds find_work_resources (unz z) with Ok r => r | Err _ => [] end.
  Definition the_unit (z : zrow) : work_unit :=
    WU (match the_reqs z with [] => true | _ => false end) (the_reqs z) (z_volume z).
  Let unit_at (k : nat) : work_unit :=
    match find (fun z => Nat.eqb (num names (z_id z)) k) zs with Some z => the_unit z | None => WU true [] 0 end.
  Let g0 := Gr (flat_map (row_edges names) zs) unit_at.
  Let info (k : nat) : node_info :=
    NI k (g_unit g0 k) (map (fun e => (e_from e, e_lag e, e_type e)) (edges_to g0 k)).

  Lemma num_id_inj z z' : In z zs -> In z' zs -> num names (z_id z) = num names (z_id z') -> z = z'.
  Proof.
    intros Hz Hz' E. apply num_inj in E; [|apply in_map; exact Hz]. clear -distinct Hz Hz' E. unfold names in distinct.
    induction zs as [|y l IH]; [destruct Hz|]. cbn in distinct. inversion distinct as [|? ? Hy Hd]; subst.
    destruct Hz as [->|Hz], Hz' as [->|Hz']; [reflexivity| | |auto].
    - exfalso. apply Hy. rewrite E. apply in_map. exact Hz'.
    - exfalso. apply Hy. rewrite <- E. apply in_map. exact Hz.
  Qed.
  Lemma unit_at_spec z : In z zs -> unit_at (num names (z_id z)) = the_unit z.
  Proof.
    intros Hz. unfold unit_at. destruct (find _ zs) as [z'|] eqn:E.
    - apply find_some in E as [Hz' E]. apply Nat.eqb_eq in E. rewrite (num_id_inj z' z Hz' Hz E). reflexivity.
    - exfalso. apply find_none with (x := z) in E; [|exact Hz]. cbv beta in E. rewrite Nat.eqb_refl in E. discriminate.
  Qed.
  Lemma edges_to_row z : In z zs -> edges_to g0 (num names (z_id z)) = row_edges names z.
  Proof.
    intros Hz. unfold edges_to, g0. cbn [g_edges].
    assert (G : forall l, (forall y, In y l -> In y zs) -> NoDup (map z_id l) ->
       filter (fun e => Nat.eqb (e_to e) (num names (z_id z))) (flat_map (row_edges names) l)
       = if str_mem (z_id z) (map z_id l) then row_edges names z else []).
    { induction l as [|y l IH]; intros Hin Hnd; [reflexivity|]. cbn [flat_map map]. cbn in Hnd. inversion Hnd as [|? ? Hy Hd]; subst.
      rewrite filter_app, IH by (auto; intros; apply Hin; right; assumption).
      assert (Ey : filter (fun e => Nat.eqb (e_to e) (num names (z_id z))) (row_edges names y)
                   = if str_eqb (z_id z) (z_id y) then row_edges names y else []).
      { destruct (str_eqb (z_id z) (z_id y)) eqn:E.
        - apply str_eqb_true in E. unfold row_edges. rewrite E.
          induction (filter _ (z_links y)) as [|q qs IHq]; [reflexivity|]. cbn [map filter e_to]. rewrite Nat.eqb_refl, IHq. reflexivity.
        - apply str_eqb_false in E. unfold row_edges.
          induction (filter _ (z_links y)) as [|q qs IHq]; [reflexivity|]. cbn [map filter e_to].
          destruct (Nat.eqb_spec (num names (z_id y)) (num names (z_id z))) as [C|_]; [|exact IHq].
          exfalso. apply E. symmetry. apply (f_equal z_id (num_id_inj y z (Hin y (or_introl eq_refl)) Hz C)). }
      rewrite Ey. unfold str_mem. cbn [existsb]. fold (str_mem (z_id z) (map z_id l)).
      destruct (str_eqb (z_id z) (z_id y)) eqn:E; cbn [orb].
      - apply str_eqb_true in E. assert (z = y).
        { apply num_id_inj; [exact Hz|apply Hin; left; reflexivity|rewrite E; reflexivity]. } subst y.
        assert (str_mem (z_id z) (map z_id l) = false) as -> by (apply str_mem_false; exact Hy). rewrite app_nil_r. reflexivity.
      - reflexivity. }
    rewrite G; [|auto|exact distinct].
    assert (str_mem (z_id z) (map z_id zs) = true) as -> by (apply str_mem_true, in_map, Hz). reflexivity.
  Qed.
  Lemma nodes_eq : map_res (node_of kinds find_work_resources names) (map unz zs)
    = Ok (map info (map (fun z => num names (z_id z)) zs)).
  Proof.
    rewrite map_res_map, map_map. apply map_res_ok. intros z Hz. unfold node_of, unz at 1 2 3. cbn [p_preds p_types p_lags].
    rewrite known_links_unz. cbn [bind]. destruct (reqs_ok z Hz) as (r & Er). rewrite Er. cbn [bind].
    unfold info. rewrite edges_to_row by exact Hz. cbn [g_unit g0]. rewrite unit_at_spec by exact Hz.
    unfold the_unit, the_reqs. rewrite Er. cbn [p_id p_volume unz]. f_equal. f_equal.
    unfold row_edges. rewrite !map_map. apply map_ext. intros q. reflexivity.
  Qed.
  Lemma ids_eq : map (fun z => num names (z_id z)) zs = seq 0 n.
  Proof.
    rewrite <- (map_map z_id (num names)). fold names. rewrite num_names by exact distinct.
    unfold names, n. rewrite map_length. reflexivity.
  Qed.
  Lemma edge_in e : In e (g_edges g0) <-> exists z q, In z zs /\ In q (z_links z) /\ In (q_pred q) names /\
    e = Ed (num names (q_pred q)) (num names (z_id z)) (int_lag (q_lag q)) (q_type q).
  Proof.
    unfold g0. cbn [g_edges]. rewrite in_flat_map. split.
    - intros (z & Hz & He). apply in_map_iff in He as (q & <- & Hq). apply filter_In in Hq as [Hq Hk].
      apply str_mem_true in Hk. exists z, q. auto.
    - intros (z & q & Hz & Hq & Hk & ->). exists z. split; [exact Hz|]. apply in_map_iff. exists q. split; [reflexivity|].
      apply filter_In. split; [exact Hq|]. apply str_mem_true. exact Hk.
  Qed.
  Lemma linked_names u v : linked g0 u v -> exists a b, In a names /\ In b names /\ u = num names a /\ v = num names b /\ follows zs a b.
  Proof.
    intros (e & He & <- & <-). apply edge_in in He as (z & q & Hz & Hq & Hk & ->). exists (q_pred q), (z_id z).
    cbn [e_from e_to]. split; [exact Hk|]. split; [apply in_map; exact Hz|]. split; [reflexivity|]. split; [reflexivity|].
    split; [exact Hk|]. exists z, q. auto.
  Qed.
  Lemma linked_acyclic : acyclic (linked g0).
  Proof.
    assert (G : forall u v, path (linked g0) u v -> exists a b, In a names /\ In b names /\ u = num names a /\ v = num names b
                 /\ clos_trans str (follows zs) a b).
    { induction 1 as [u v H|u m v H1 (a & c & Ha & Hc & Eu & Em & P1) H2 (c' & b & Hc' & Hb & Em' & Ev & P2)].
      - destruct (linked_names u v H) as (a & b & Ha & Hb & Eu & Ev & F). exists a, b. repeat (split; [assumption|]). apply t_step, F.
      - exists a, b. repeat (split; [assumption|]). rewrite Em in Em'. apply num_inj in Em'; [|exact Hc]. subst c'.
        eapply t_trans; eassumption. }
    intros x Hx. destruct (G x x Hx) as (a & b & Ha & Hb & E1 & E2 & P). rewrite E1 in E2. apply num_inj in E2; [|exact Ha]. subst b.
    exact (no_loop a P).
  Qed.
  Lemma linked_seq u v : linked g0 u v -> In u (seq 0 n) /\ In v (seq 0 n).
  Proof.
    intros H. destruct (linked_names u v H) as (a & b & Ha & Hb & -> & -> & _). apply num_lt in Ha, Hb.
    unfold names in *. rewrite map_length in Ha, Hb. rewrite !in_seq. fold n in Ha, Hb. lia.
  Qed.

  Lemma work_graph_spec : exists w own es ef middle,
    work_graph topological_sort set_order kinds find_work_resources start finish (map unz zs) = Ok (Ends w)
    /\ wg_start w = start /\ wg_finish w = finish
    /\ wg_nodes w = start :: middle ++ [finish] /\ Permutation middle (seq 0 n)
    /\ topological (linked (wg_graph w)) (wg_nodes w)
    /\ g_edges (wg_graph w) = own ++ es ++ ef
    /\ Permutation own (flat_map (row_edges names) zs)
    /\ (forall e, In e es <-> exists k, (k < n)%nat /\ e = Ed start k 0 FS
          /\ forall e', In e' own -> is_dependency (e_type e') = true -> e_to e' <> k)
    /\ (forall e, In e ef <-> exists k, (k < n)%nat /\ e = Ed k finish 0 FS
          /\ forall e', In e' own -> is_dependency (e_type e') = true -> e_from e' <> k)
    /\ (forall z, In z zs -> g_unit (wg_graph w) (num names (z_id z)) = the_unit z)
    /\ NoDup es /\ NoDup ef /\ (forall k, (n <= k)%nat -> g_unit (wg_graph w) k = WU true [] 0).
  Proof.
    unfold work_graph. replace (map p_id (map unz zs)) with names by (unfold names; rewrite map_map; reflexivity).
    cbv zeta. rewrite nodes_eq, ids_eq. cbn [bind].
    assert (Eid : map ni_id (map info (seq 0 n)) = seq 0 n) by (rewrite map_map; apply map_id).
    rewrite Eid.
    set (es0 := flat_map (fun i => map (fun p => (fst (fst p), ni_id i)) (ni_parents i)) (map info (seq 0 n))).
    assert (Hes : forall a b, In (a, b) es0 <-> linked g0 a b).
    { intros a b. unfold es0. rewrite in_flat_map. split.
      - intros (i & Hi & Hp). apply in_map_iff in Hi as (k & <- & Hk). apply in_map_iff in Hp as (p & Ep & Hp).
        cbn [info ni_parents ni_id] in Hp, Ep. apply in_map_iff in Hp as (e & <- & He). cbn [fst] in Ep.
        apply edges_to_in in He as [He Et]. exists e. split; [exact He|]. injection Ep as <- <-. auto.
      - intros H. assert (Hk := linked_seq a b H). destruct H as (e & He & <- & <-). exists (info (e_to e)).
        split; [apply in_map; tauto|]. apply in_map_iff. exists (e_from e, e_lag e, e_type e). split; [reflexivity|].
        cbn [info ni_parents]. apply in_map_iff. exists e. split; [reflexivity|]. apply edges_to_in. auto. }
    destruct (sort_ok (seq 0 n) es0) as (order & Eo & Po & To).
    { apply seq_NoDup. }
    { intros a b H. apply Hes in H. apply linked_seq, H. }
    { intros x Hx. apply (linked_acyclic x). exact (path_mono _ _ (fun a b H => proj1 (Hes a b) H) x x Hx). }
    rewrite Eo.
    set (sorted := sort_by _ (map info (seq 0 n))).
    assert (Ps : Permutation sorted (map info (seq 0 n))) by apply sort_perm.
    set (l := map ni_id sorted).
    assert (Pl : Permutation l (seq 0 n)).
    { unfold l. rewrite <- Eid. apply Permutation_map, Ps. }
    assert (El : sorted = map info l).
    { unfold l. rewrite map_map. rewrite <- (map_id sorted) at 1. apply map_ext_in. intros i Hi.
      apply (Permutation_in _ Ps) in Hi. apply in_map_iff in Hi as (k & <- & _). reflexivity. }
    assert (Hasc : StronglySorted (fun x y => Z.of_nat (pos order (ni_id x)) <= Z.of_nat (pos order (ni_id y))) sorted)
      by apply sort_ascending.
    assert (Hasc' : StronglySorted (fun x y => (pos order x <= pos order y)%nat) l).
    { unfold l. clear -Hasc. induction Hasc as [|x s H IH Hf]; [constructor|]. cbn [map]. constructor; [exact IH|].
      apply Forall_forall. intros y Hy. apply in_map_iff in Hy as (i & <- & Hi). rewrite Forall_forall in Hf. specialize (Hf i Hi). lia. }
    assert (Hnd : NoDup l) by (eapply Permutation_NoDup; [symmetry; exact Pl|apply seq_NoDup]).
    assert (HndO : NoDup order) by (eapply Permutation_NoDup; [symmetry; exact Po|apply seq_NoDup]).
    assert (Hpre : forall pre k post, l = pre ++ k :: post -> forall x, linked g0 x k -> In x [] \/ In x pre).
    { intros pre k post E x Hx. right. destruct (linked_seq x k Hx) as [H1 H2].
      assert (Hb : comes_before order x k).
      { apply To; [apply Hes, Hx| |]; (eapply Permutation_in; [symmetry; exact Po|assumption]). }
      apply comes_before_pos in Hb as (_ & _ & Hlt); [|exact HndO].
      assert (Hxl : In x l) by (eapply Permutation_in; [symmetry; exact Pl|exact H1]).
      rewrite E in Hxl. apply in_app_or in Hxl as [Hxl|[->|Hxl]]; [exact Hxl|lia|].
      exfalso. rewrite E in Hasc'. clear -Hasc' Hlt Hxl. induction pre as [|y pre IH]; cbn in Hasc'.
      - inversion Hasc' as [|? ? _ Hf]; subst. rewrite Forall_forall in Hf. specialize (Hf x Hxl). lia.
      - inversion Hasc'; subst. auto. }
    rewrite El. destruct (rebuild_spec g0 l [] (Gr [] (fun _ => WU true [] 0)) Hpre) as (u & Eu & Hu).
    change (map info l) with (map (fun k => NI k (g_unit g0 k) (map (fun e => (e_from e, e_lag e, e_type e)) (edges_to g0 k))) l).
    rewrite Eu. cbn [g_edges app].
    set (own := List.concat (map (edges_to g0) l)).
    assert (Pown : Permutation own (g_edges g0)).
    { apply (edges_partition (g_edges g0) l Hnd). intros e He. eapply Permutation_in; [symmetry; exact Pl|].
      apply (linked_seq (e_from e) (e_to e)). exists e. auto. }
    assert (Hlk : forall x y, linked (Gr own u) x y <-> linked g0 x y).
    { intros x y. split; intros (e & He & H); exists e; (split; [|exact H]).
      - eapply Permutation_in; [exact Pown|exact He].
      - eapply Permutation_in; [symmetry; exact Pown|exact He]. }
    assert (Pnodes := set_ok (seq 0 n)).
    destruct (from_nodes_correct (Gr own u) (set_order (seq 0 n)) start finish) as (w & Ew & W1 & W2 & (middle & W3 & W4) & W5 & (es & ef & W6 & W7 & W8 & W8a & W8b) & W9 & W9a).
    { intros x Hx. apply (linked_acyclic x). exact (path_mono _ _ (fun a b H => proj1 (Hlk a b) H) x x Hx). }
    { intros x y H. apply Hlk, linked_seq in H as [H1 H2].
      split; (eapply Permutation_in; [symmetry; exact Pnodes|assumption]). }
    { eapply Permutation_NoDup; [symmetry; exact Pnodes|apply seq_NoDup]. }
    { intros C. rewrite C in Pnodes. apply Permutation_nil in Pnodes. unfold n in Pnodes. destruct zs; [congruence|discriminate]. }
    { intros C. apply (Permutation_in _ Pnodes), in_seq in C. lia. }
    { intros C. apply (Permutation_in _ Pnodes), in_seq in C. lia. }
    { exact fresh3. }
    cbn [g_edges app] in *. rewrite Ew.
    assert (Hin : forall k, In k (set_order (seq 0 n)) <-> (k < n)%nat).
    { intros k. split; intros H; [apply (Permutation_in _ Pnodes), in_seq in H; lia|].
      apply (Permutation_in _ (Permutation_sym Pnodes)), in_seq. lia. }
    exists w, own, es, ef, middle. split; [reflexivity|]. split; [exact W1|]. split; [exact W2|]. split; [exact W3|].
    split; [rewrite W4; exact Pnodes|]. split; [exact W5|]. split; [exact W6|]. split; [exact Pown|].
    assert (Hpar : forall k, parents (Gr own u) k = [] <-> forall e', In e' own -> is_dependency (e_type e') = true -> e_to e' <> k).
    { intros k. unfold parents, edges_to. cbn [g_edges]. split.
      - intros E e' He' Hd Et. assert (C : In (e_from e') (map e_from (filter (fun e => is_dependency (e_type e)) (filter (fun e => Nat.eqb (e_to e) k) own)))).
        { apply in_map, filter_In. split; [apply filter_In; split; [exact He'|apply Nat.eqb_eq; exact Et]|exact Hd]. }
        rewrite E in C. destruct C.
      - intros H. destruct (filter _ (filter _ own)) as [|e r] eqn:E; [reflexivity|]. exfalso.
        assert (C : In e (e :: r)) by (left; reflexivity). rewrite <- E in C. apply filter_In in C as [C Hd]. apply filter_In in C as [C Et].
        apply Nat.eqb_eq in Et. exact (H e C Hd Et). }
    assert (Hch : forall k, children (Gr own u) k = [] <-> forall e', In e' own -> is_dependency (e_type e') = true -> e_from e' <> k).
    { intros k. unfold children, edges_from. cbn [g_edges]. split.
      - intros E e' He' Hd Et. assert (C : In (e_to e') (map e_to (filter (fun e => is_dependency (e_type e)) (filter (fun e => Nat.eqb (e_from e) k) own)))).
        { apply in_map, filter_In. split; [apply filter_In; split; [exact He'|apply Nat.eqb_eq; exact Et]|exact Hd]. }
        rewrite E in C. destruct C.
      - intros H. destruct (filter _ (filter _ own)) as [|e r] eqn:E; [reflexivity|]. exfalso.
        assert (C : In e (e :: r)) by (left; reflexivity). rewrite <- E in C. apply filter_In in C as [C Hd]. apply filter_In in C as [C Et].
        apply Nat.eqb_eq in Et. exact (H e C Hd Et). }
    split; [|split; [|split; [|split; [exact W8a|split; [exact W8b|]]]]].
    - intros e. rewrite W7. split.
      + intros (k & Hk & Ek & ->). exists k. split; [apply Hin, Hk|]. split; [reflexivity|]. apply Hpar, Ek.
      + intros (k & Hk & -> & H). exists k. split; [apply Hin, Hk|]. split; [apply Hpar, H|reflexivity].
    - intros e. rewrite W8. split.
      + intros (k & Hk & Ek & ->). exists k. split; [apply Hin, Hk|]. split; [reflexivity|]. apply Hch, Ek.
      + intros (k & Hk & -> & H). exists k. split; [apply Hin, Hk|]. split; [apply Hch, H|reflexivity].
    - intros z Hz. assert (Hk : (num names (z_id z) < n)%nat).
      { assert (H := in_map z_id zs z Hz). apply num_lt in H. fold names in H. unfold names at 2 in H. rewrite map_length in H. exact H. }
      rewrite W9 by (apply Hin, Hk). cbn [g_unit]. rewrite Hu.
      assert (mem (num names (z_id z)) l = true) as ->.
      { apply mem_in. eapply Permutation_in; [symmetry; exact Pl|]. apply in_seq. lia. }
      cbn [g_unit g0]. apply unit_at_spec, Hz.
    - intros k Hk. rewrite W9a. cbn [g_unit]. rewrite Hu. destruct (Nat.eqb k start || Nat.eqb k finish); [reflexivity|].
      assert (mem k l = false) as ->; [|reflexivity]. destruct (mem k l) eqn:Em; [|reflexivity]. exfalso.
      apply mem_in, (Permutation_in _ Pl), in_seq in Em. lia.
  Qed.
End WorkGraph.
