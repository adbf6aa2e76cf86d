(** C106: from a table of works to a schedule. *)
From Coq Require Import ZArith QArith Qround List Bool Ascii String Lia Lqa Permutation Relations.
From Verif Require Import TimeModel MomentumModel JITModel ParserModel ParserProofs ParserGraph ParserTheorems
  GraphModel ScheduleModel TopoModel TraverseModel ValidationModel OrderModel
  PipelineModel ResourceModel EnvModel RestructModel LagPipelineModel TableScheduleModel
  Digraph TopoProofs ScheduleSpec ScheduleProofs TopoTheorems TraverseProofs HeadProofs HeadTheorems RestructSplit RestructProofs RestructTheorems
  EstimatorModel EstimatorTheorems ResourceTheorems PipelineTheorems OrderTheorems EnvTheorems LagPipelineProofs LagPipelineTheorems.
Import ListNotations.
Local Open Scope Z_scope.

(** ** Specification *)
(** The requirements of a work: those its row gives, or those the estimator finds. *)
Definition asks (kinds : list nat) (find_work_resources : str -> Z -> list req) (x : work) : list req :=
  match wk_reqs x with
  | None => find_work_resources (wk_id x) (wk_volume x)
  | Some (least, greatest, volume) => required kinds least greatest volume
  end.
(** What a table has to be like to be scheduled: the links have no loop; lags are integers up
    to [Lg], not negative between a finish and a start; a work is linked to another one at most
    once as to their starts and once as to their finishes; inseparable links join works in a
    row, and a later work can be done by the team of an earlier one; amounts are not negative,
    the productivity of each kind is known, a work takes at most the time [D], and the horizon
    of time is far enough. *)
Record fit_table (value : str -> Q) (asked : work -> list req) (table : list work) (productivity : productivities) (apt D Lg : Z) : Prop := {
  ft_loops : forall a, ~ clos_trans str (precedes table) a a;
  ft_lags : forall x l, In x table -> In l (wk_links x) -> exists z, (value (lk_lag l) == inject_Z z)%Q /\ z <= Lg /\ (lk_type l = FS -> 0 <= z);
  ft_once : forall x k, In x table -> k = start_kind \/ k = finish_kind -> NoDup (map lk_pred (filter (fun l => k (lk_type l)) (wk_links x)));
  ft_chains : forall x y l m, In x table -> In y table -> In l (wk_links x) -> In m (wk_links y) -> lk_type l = IFS -> lk_type m = IFS ->
    wk_id x = wk_id y <-> lk_pred l = lk_pred m;
  ft_chain_reqs : forall x y l, In x table -> In y table -> In l (wk_links x) -> lk_type l = IFS -> lk_pred l = wk_id y ->
    Forall2 (fun r r' => r_kind r = r_kind r' /\ r_min r' <= r_min r /\ r_max r <= r_max r') (asked y) (asked x);
  ft_reqs : forall x, In x table -> reqs_ok (asked x);
  ft_amounts : forall x, In x table -> 0 <= wk_volume x /\ forall r, In r (asked x) -> 0 <= r_volume r;
  ft_productivity : forall x r c, In x table -> In r (asked x) ->
    exists f, productivity (r_kind r) = Some f /\ (0 < f c)%Q /\ (inject_Z (r_volume r) <= inject_Z D * f c)%Q;
  ft_horizon : 0 <= apt /\ 0 <= D /\ 0 <= Lg /\
    2 * (apt + (3 + 5 * Z.of_nat (List.length table) + 2 * Z.of_nat (List.length (flat_map wk_links table))) * (1 + D + Lg)) < TIME_INF
}.
(** What may be specified for a work: contractors and the numbers of all its workers. *)
Definition fit_spec (cs : list contractor) (asked : list req) (s : work_spec) : Prop :=
  spec_ok s /\ sp_time s = None /\ spec_fits cs asked s /\
  (sp_workers s = [] \/ List.length (sp_workers s) = List.length asked) /\
  forall r n, In r asked -> In (r_kind r, n) (sp_workers s) -> r_min r <= n <= r_max r.
(** What a link to a preceding work, carried out from [su] to [fu], asks of a work, carried out
    from [sv] to [fv]. *)
Definition link_kept (value : str -> Q) (l : link) (su fu sv fv : Z) : Prop :=
  match lk_type l with
  | FS => tadd fu (Qceiling (value (lk_lag l))) <= sv
  | IFS => fu <= sv
  | SS => su <= sv
  | FF => fu <= fv
  | FFS => su <= sv /\ fu <= fv
  end.

(** ** Proofs *)
Lemma nodup_app_poly {A} (l m : list A) : NoDup l -> NoDup m -> (forall x, In x l -> In x m -> False) -> NoDup (l ++ m).
Proof.
  intros H1 H2 H. induction H1 as [|x l Hx H1 IH]; [exact H2|]. cbn. constructor.
  - rewrite in_app_iff. intros [C|C]; [auto|]. exact (H x (or_introl eq_refl) C).
  - apply IH. intros y Hy. apply H. right. exact Hy.
Qed.
Section Table.
  Variables (value : str -> Q) (asked : work -> list req) (table : list work) (productivity : productivities) (apt D Lg : Z) (start finish : nat).
  Hypothesis Hok : fit_table value asked table productivity apt D Lg.
  Hypothesis Hne : table <> [].
  Hypothesis Hnd : NoDup (map wk_id table).
  Hypothesis Hs : (List.length table <= start)%nat.
  Hypothesis Hf : (List.length table <= finish)%nat.
  Hypothesis Hsf : start <> finish.
  Let names := map wk_id table.
  Variables (keep : str -> str -> bool) (w : TraverseModel.work_graph) (own es ef : list edge) (middle : list nat).
  Hypothesis W1 : wg_start w = start.
  Hypothesis W2 : wg_finish w = finish.
  Hypothesis W3 : wg_nodes w = start :: middle ++ [finish].
  Hypothesis W4 : Permutation middle (map (num names) names).
  Hypothesis W5 : topological (linked (wg_graph w)) (wg_nodes w).
  Hypothesis W6 : g_edges (wg_graph w) = own ++ es ++ ef.
  Hypothesis W7 : Permutation own (flat_map (edges_of value names keep) table).
  Hypothesis W8 : forall a b, precedes table a b -> keep a b = true.
  Hypothesis W9 : forall e, In e es <-> exists x, In x names /\ e = Ed start (num names x) 0 FS
          /\ forall e', In e' own -> is_dependency (e_type e') = true -> e_to e' <> num names x.
  Hypothesis W10 : forall e, In e ef <-> exists x, In x names /\ e = Ed (num names x) finish 0 FS
          /\ forall e', In e' own -> is_dependency (e_type e') = true -> e_from e' <> num names x.
  Hypothesis W11 : forall x, In x table -> let u := g_unit (wg_graph w) (num names (wk_id x)) in
          u_volume u = wk_volume x /\ (u_service u = true <-> u_reqs u = []) /\ u_reqs u = asked x.
  Hypothesis W12 : NoDup es.
  Hypothesis W13 : NoDup ef.
  Hypothesis W14 : forall k, (List.length table <= k)%nat -> g_unit (wg_graph w) k = WU true [] 0.

  Lemma names_length : List.length names = List.length table.
  Proof. apply map_length. Qed.
  Lemma num_small x : In x names -> (num names x < List.length table)%nat.
  Proof. intros H. apply num_lt in H. rewrite names_length in H. exact H. Qed.
  Lemma small_num k : (k < List.length table)%nat -> exists x, In x table /\ k = num names (wk_id x).
  Proof.
    intros H. rewrite <- names_length in H. assert (E := num_nth names k [] Hnd H). assert (I := nth_In names [] H).
    unfold names in I at 2. apply in_map_iff in I as (x & Ex & Hx). exists x. split; [exact Hx|]. rewrite Ex. auto.
  Qed.
  Lemma in_middle k : In k middle <-> (k < List.length table)%nat.
  Proof.
    rewrite (num_names names Hnd) in W4. split.
    - intros H. apply (Permutation_in _ W4), in_seq in H. rewrite names_length in H. lia.
    - intros H. apply (Permutation_in _ (Permutation_sym W4)), in_seq. rewrite names_length. lia.
  Qed.
  Lemma nodes_nodup : NoDup (wg_nodes w).
  Proof.
    rewrite W3. assert (W4' := W4). rewrite (num_names names Hnd) in W4'. constructor.
    - rewrite in_app_iff, in_middle. cbn. intros [C|[C|[]]]; [lia|congruence].
    - apply nodup_app_i; [eapply Permutation_NoDup; [apply Permutation_sym; exact W4'|apply seq_NoDup]|repeat constructor; intros []|].
      intros x Hx [<-|[]]. apply in_middle in Hx. lia.
  Qed.
  Lemma in_nodes k : In k (wg_nodes w) <-> k = start \/ k = finish \/ (k < List.length table)%nat.
  Proof. rewrite W3. cbn [In]. rewrite in_app_iff, in_middle. cbn. intuition congruence. Qed.

  Definition link_edge (x : work) (l : link) (z : Z) : edge := Ed (num names (lk_pred l)) (num names (wk_id x)) z (lk_type l).
  Lemma in_own e : In e own <-> exists x l z, In x table /\ In l (wk_links x) /\ In (lk_pred l) names /\ (value (lk_lag l) == inject_Z z)%Q /\ e = link_edge x l z.
  Proof.
    assert (Z : forall q z, (q == inject_Z z)%Q -> Z.quot (Qnum q) (Zpos (Qden q)) = z).
    { intros [a b] z E. unfold Qeq in E. cbn [Qnum Qden inject_Z] in *. rewrite Z.mul_1_r in E. rewrite E. apply Z.quot_mul. lia. }
    split.
    - intros H. apply (Permutation_in _ W7), in_flat_map in H as (x & Hx & H). apply in_map_iff in H as (l & <- & H).
      apply filter_In in H as [Hl H]. apply andb_true_iff in H as [H _]. apply str_mem_true in H.
      destruct (ft_lags _ _ _ _ _ _ _ Hok x l Hx Hl) as (z & Ez & _). exists x, l, z. repeat (split; [assumption|]). unfold link_edge. rewrite (Z _ _ Ez). reflexivity.
    - intros (x & l & z & Hx & Hl & Hp & Ez & ->). apply (Permutation_in _ (Permutation_sym W7)), in_flat_map. exists x. split; [exact Hx|].
      apply in_map_iff. exists l. split; [rewrite (Z _ _ Ez); reflexivity|]. apply filter_In. split; [exact Hl|]. rewrite (proj2 (str_mem_true _ _) Hp). cbn [andb].
      apply W8. split; [exact Hp|]. exists x, l. auto.
  Qed.
  Lemma id_in x : In x table -> In (wk_id x) names.
  Proof. apply in_map. Qed.
  Lemma same_work x y : In x table -> In y table -> num names (wk_id x) = num names (wk_id y) -> x = y.
  Proof.
    intros Hx Hy E. apply num_inj in E; [|apply id_in, Hx]. clear -Hnd Hx Hy E.
    induction table as [|z t IH]; [destruct Hx|]. cbn in Hnd. inversion Hnd as [|? ? N1 N2]; subst. destruct Hx as [->|Hx], Hy as [->|Hy]; auto.
    - exfalso. apply N1. rewrite E. apply in_map, Hy.
    - exfalso. apply N1. rewrite <- E. apply in_map, Hx.
  Qed.
  Lemma unit_cases n : (exists x, In x table /\ n = num names (wk_id x)) \/ g_unit (wg_graph w) n = WU true [] 0.
  Proof. destruct (Nat.lt_ge_cases n (List.length table)) as [H|H]; [left; apply small_num, H|right; apply W14, H]. Qed.
  Let p := project_of w.
  Lemma in_edges_p e : In e (pj_edges p) <-> exists e0, In e0 (own ++ es ++ ef) /\ e = RE (e_from e0) (e_to e0) (inject_Z (e_lag e0)) (e_type e0).
  Proof. unfold p, project_of. cbn [pj_edges]. rewrite W6, in_map_iff. split; intros (e0 & A & B); exists e0; auto. Qed.
  Lemma edge_cases e : In e (own ++ es ++ ef) ->
    (exists x l z, In x table /\ In l (wk_links x) /\ In (lk_pred l) names /\ (value (lk_lag l) == inject_Z z)%Q /\ e = link_edge x l z) \/
    (exists x, In x names /\ e = Ed start (num names x) 0 FS) \/ (exists x, In x names /\ e = Ed (num names x) finish 0 FS).
  Proof.
    rewrite !in_app_iff. intros [H|[H|H]].
    - left. apply in_own, H.
    - right. left. apply W9 in H as (x & A & B & _). eauto.
    - right. right. apply W10 in H as (x & A & B & _). eauto.
  Qed.
  Lemma last_free : exists x, In x names /\ forall e', In e' own -> is_dependency (e_type e') = true -> e_from e' <> num names x.
  Proof.
    destruct (exists_last (l := middle)) as (mid & m & Em).
    { intros C. assert (W4' := W4). rewrite C in W4'. apply Permutation_nil in W4'. unfold names in W4'. destruct table; [congruence|discriminate]. }
    assert (Hm : In m middle) by (rewrite Em; apply in_or_app; right; left; reflexivity).
    assert (Hm' := Hm). apply in_middle, small_num in Hm' as (x & Hx & E). exists (wk_id x). split; [apply id_in, Hx|]. intros e' He' _ C.
    assert (L : linked (wg_graph w) (e_from e') (e_to e')).
    { exists e'. split; [rewrite W6; apply in_or_app; left; exact He'|auto]. }
    apply in_own in He' as (y & l & z & Hy & Hl & Hp & Ez & ->). cbn [link_edge e_from e_to] in *.
    assert (B := W5 _ _ L). assert (Nt : In (num names (wk_id y)) (wg_nodes w)) by (apply in_nodes; right; right; apply num_small, id_in, Hy).
    assert (Nf : In (num names (lk_pred l)) (wg_nodes w)) by (apply in_nodes; right; right; apply num_small, Hp).
    specialize (B Nf Nt). assert (Nd := nodes_nodup). rewrite C, <- E in B.
    apply comes_before_pos in B as (_ & _ & B); [|exact Nd]. rewrite W3, Em in B. rewrite W3, Em in Nd.
      assert (P : forall l1 l2 k, NoDup (l1 ++ l2) -> In k l1 -> (pos (l1 ++ l2) k < List.length l1)%nat).
      { clear. induction l1 as [|a l1 IH]; intros l2 k N H; [destruct H|]. cbn [app pos List.length]. destruct (Nat.eqb_spec a k); [lia|].
        destruct H as [H|H]; [congruence|]. inversion N; subst. specialize (IH l2 k ltac:(assumption) H). lia. }
      assert (Q : forall l1 k l2, NoDup (l1 ++ k :: l2) -> pos (l1 ++ k :: l2) k = List.length l1).
      { clear. induction l1 as [|a l1 IH]; intros k l2 N; cbn [app pos List.length]; [rewrite Nat.eqb_refl; reflexivity|].
        inversion N as [|? ? N1 N2]; subst. destruct (Nat.eqb_spec a k) as [->|]; [exfalso; apply N1, in_or_app; right; left; reflexivity|]. rewrite IH by exact N2. reflexivity. }
      replace (start :: (mid ++ [m]) ++ [finish]) with ((start :: mid) ++ m :: [finish]) in B, Nd by (cbn; rewrite <- app_assoc; reflexivity).
      rewrite (Q _ _ _ Nd) in B.
      assert (I : In (num names (wk_id y)) middle) by (apply in_middle, num_small, id_in, Hy). rewrite Em, in_app_iff in I. destruct I as [I|[I|[]]].
    - assert (X := P (start :: mid) (m :: [finish]) _ Nd (or_intror I)). lia.
    - rewrite <- I in B. rewrite (Q _ _ _ Nd) in B. lia.
  Qed.
  Lemma first_free : exists x, In x names /\ forall e', In e' own -> is_dependency (e_type e') = true -> e_to e' <> num names x.
  Proof.
    assert (Q : forall m rest, middle = m :: rest -> exists x, In x names /\ forall e', In e' own -> is_dependency (e_type e') = true -> e_to e' <> num names x).
    { intros m rest Em. assert (Hm : In m middle) by (rewrite Em; left; reflexivity). apply in_middle, small_num in Hm as (x & Hx & E).
      exists (wk_id x). split; [apply id_in, Hx|]. intros e' He' _ C.
      assert (L : linked (wg_graph w) (e_from e') (e_to e')).
      { exists e'. split; [rewrite W6; apply in_or_app; left; exact He'|auto]. }
      apply in_own in He' as (y & l & z & Hy & Hl & Hp & Ez & ->). cbn [link_edge e_from e_to] in *.
      assert (B := W5 _ _ L). specialize (B (proj2 (in_nodes _) (or_intror (or_intror (num_small _ Hp)))) (proj2 (in_nodes _) (or_intror (or_intror (num_small _ (id_in y Hy)))))).
      rewrite C, <- E in B. apply comes_before_pos in B as (_ & _ & B); [|apply nodes_nodup]. rewrite W3, Em in B. cbn [app pos] in B.
      assert (A := num_small _ Hp). destruct (Nat.eqb_spec start m) as [->|]; [lia|]. rewrite Nat.eqb_refl in B.
      destruct (Nat.eqb_spec start (num names (lk_pred l))); [lia|]. lia. }
    destruct middle as [|m rest] eqn:Em; [|eapply Q; reflexivity]. exfalso. assert (W4' := W4). apply Permutation_nil in W4'. unfold names in W4'. destruct table; [congruence|discriminate].
  Qed.
  Lemma links_once k : k = start_kind \/ k = finish_kind ->
    NoDup (map (fun e => (re_from e, re_to e)) (filter (fun e => k (re_type e)) (pj_edges p))).
  Proof.
    intros Hk. set (f := fun e : edge => (e_from e, e_to e)). set (t := fun e : edge => k (e_type e)).
    assert (E : map (fun e => (re_from e, re_to e)) (filter (fun e => k (re_type e)) (pj_edges p)) = map f (filter t (own ++ es ++ ef))).
    { unfold p, project_of. cbn [pj_edges]. rewrite W6. generalize (own ++ es ++ ef). clear. intros l. induction l as [|e l IH]; [reflexivity|].
      cbn [map filter re_type]. unfold t at 1. destruct (k (e_type e)); [|exact IH]. cbn [map re_from re_to]. rewrite IH. reflexivity. }
    rewrite E, filter_app.
    assert (N : filter t (es ++ ef) = []).
    { assert (F : forall e, In e (es ++ ef) -> e_type e = FS).
      { intros e He. apply in_app_or in He as [He|He]; [apply W9 in He as (x & _ & -> & _)|apply W10 in He as (x & _ & -> & _)]; reflexivity. }
      revert F. generalize (es ++ ef). intros l. induction l as [|e l IH]; intros F; [reflexivity|]. cbn [filter]. unfold t at 1. rewrite (F e (or_introl eq_refl)).
      assert (k FS = false) as -> by (destruct Hk as [->| ->]; reflexivity). apply IH. intros e' He'. apply F. right. exact He'. }
    rewrite N, app_nil_r.
    assert (PF : forall a b : list edge, Permutation a b -> Permutation (filter t a) (filter t b)).
    { clear. induction 1 as [|x a b H IH|x y a|a b c _ I1 _ I2]; cbn [filter]; [constructor| | |eapply Permutation_trans; eassumption].
      - destruct (t x); [constructor|]; exact IH.
      - destruct (t x), (t y); try apply Permutation_refl. constructor. }
    eapply Permutation_NoDup; [apply Permutation_map, Permutation_sym, PF, W7|].
    assert (G : forall ts, incl ts table -> NoDup (map wk_id ts) -> NoDup (map f (filter t (flat_map (edges_of value names keep) ts)))).
    { clear N E. induction ts as [|x ts IH]; intros I N; [constructor|]. cbn [flat_map]. rewrite filter_app, map_app. cbn [map] in N. apply NoDup_cons_iff in N as [N1 N2].
      assert (Hx : In x table) by (apply I; left; reflexivity).
      apply nodup_app_poly; [|apply IH; [intros y Hy; apply I; right; exact Hy|exact N2]|].
      - assert (O := ft_once _ _ _ _ _ _ _ Hok x k Hx Hk). unfold edges_of. revert O. generalize (wk_links x). intros ls. induction ls as [|l ls IHl]; intros O; [constructor|].
        cbn [filter] in O. assert (O' : NoDup (map lk_pred (filter (fun l => k (lk_type l)) ls))) by (destruct (k (lk_type l)); [inversion O; assumption|exact O]).
        specialize (IHl O'). cbn [filter]. destruct (str_mem (lk_pred l) names && keep (lk_pred l) (wk_id x)) eqn:Eb; [|exact IHl]. cbn [map filter]. unfold t at 1. cbn [e_type].
        destruct (k (lk_type l)) eqn:Ek; [|exact IHl]. cbn [map]. constructor; [|exact IHl]. intros C. apply in_map_iff in C as (e & Ee & C). apply filter_In in C as [C Te].
        apply in_map_iff in C as (m & <- & C). apply filter_In in C as [C B]. unfold f in Ee. cbn [e_from e_to] in Ee. injection Ee as Ee.
        apply andb_true_iff in B as [B _]. apply str_mem_true in B. apply num_inj in Ee; [|exact B]. cbn [map] in O. apply NoDup_cons_iff in O as [O1 _]. apply O1.
        apply in_map_iff. exists m. split; [exact Ee|]. apply filter_In. split; [exact C|exact Te].
      - intros [a b] H1 H2. apply in_map_iff in H1 as (e1 & E1 & H1), H2 as (e2 & E2 & H2). apply filter_In in H1 as [H1 _], H2 as [H2 _].
        apply in_map_iff in H1 as (l1 & <- & _). apply in_flat_map in H2 as (y & Hy & H2). apply in_map_iff in H2 as (l2 & <- & _).
        unfold f in E1, E2. cbn [e_from e_to] in E1, E2. apply (f_equal snd) in E1, E2. cbn [snd] in E1, E2. rewrite <- E2 in E1.
        apply num_inj in E1; [|apply id_in, Hx]. apply N1. rewrite E1. apply in_map, Hy. }
    apply G; [apply incl_refl|exact Hnd].
  Qed.
  Lemma own_length : (List.length own <= List.length (flat_map wk_links table))%nat.
  Proof.
    rewrite (Permutation_length W7). generalize table. intros ts. induction ts as [|x ts IH]; [cbn; lia|]. cbn [flat_map]. rewrite !app_length.
    unfold edges_of at 1. rewrite map_length.
    assert (F : forall (g : link -> bool) l, (List.length (filter g l) <= List.length l)%nat) by (clear; intros g l; induction l as [|a l I]; cbn; [lia|]; destruct (g a); cbn; lia).
    specialize (F (fun l => str_mem (lk_pred l) names && keep (lk_pred l) (wk_id x)) (wk_links x)). lia.
  Qed.
  Lemma ends_length : (List.length es <= List.length table)%nat /\ (List.length ef <= List.length table)%nat.
  Proof.
    split.
    - rewrite <- names_length, <- (map_length (fun x => Ed start (num names x) 0 FS) names). apply NoDup_incl_length; [exact W12|].
      intros e He. apply W9 in He as (x & Hx & -> & _). apply in_map_iff. exists x. auto.
    - rewrite <- names_length, <- (map_length (fun x => Ed (num names x) finish 0 FS) names). apply NoDup_incl_length; [exact W13|].
      intros e He. apply W10 in He as (x & Hx & -> & _). apply in_map_iff. exists x. auto.
  Qed.
  Lemma sizes : List.length (pj_nodes p) = (2 + List.length table)%nat /\
    (List.length (pj_edges p) <= 2 * List.length table + List.length (flat_map wk_links table))%nat.
  Proof.
    unfold p, project_of. cbn [pj_nodes pj_edges]. split.
    - rewrite W3. cbn [List.length]. rewrite app_length, (Permutation_length W4), map_length, names_length. cbn. lia.
    - rewrite map_length, W6, !app_length. assert (A := own_length). assert (B := ends_length). lia.
  Qed.
  Lemma dec_dependency (f : edge -> nat) k : (exists e, In e own /\ is_dependency (e_type e) = true /\ f e = k) \/ (forall e, In e own -> is_dependency (e_type e) = true -> f e <> k).
  Proof.
    destruct (existsb (fun e => is_dependency (e_type e) && Nat.eqb (f e) k) own) eqn:E.
    - left. apply existsb_exists in E as (e & He & E). apply andb_true_iff in E as [E1 E2]. apply Nat.eqb_eq in E2. eauto.
    - right. intros e He D1 D2. assert (C : existsb (fun e => is_dependency (e_type e) && Nat.eqb (f e) k) own = true); [|congruence].
      apply existsb_exists. exists e. split; [exact He|]. rewrite D1, (proj2 (Nat.eqb_eq _ _) D2). reflexivity.
  Qed.
  Lemma table_project_ok : project_ok p productivity apt D Lg.
  Proof.
    destruct (ft_horizon _ _ _ _ _ _ _ Hok) as (H1 & H2 & H3 & H4). destruct sizes as [S1 S2].
    constructor.
    - apply nodes_nodup.
    - intros e He. apply in_edges_p in He as (e0 & He & ->). cbn [re_from re_to]. apply W5.
      + exists e0. rewrite W6. auto.
      + apply in_nodes. destruct (edge_cases e0 He) as [(x & l & z & Hx & Hl & Hp & Ez & ->)|[(x & Hx & ->)|(x & Hx & ->)]]; cbn; [right; right; apply num_small, Hp|auto|right; right; apply num_small, Hx].
      + apply in_nodes. destruct (edge_cases e0 He) as [(x & l & z & Hx & Hl & Hp & Ez & ->)|[(x & Hx & ->)|(x & Hx & ->)]]; cbn; [right; right; apply num_small, id_in, Hx|right; right; apply num_small, Hx|auto].
    - apply links_once.
    - unfold p, project_of. cbn [pj_start pj_nodes]. rewrite W1. apply in_nodes. auto.
    - unfold p, project_of. cbn [pj_finish pj_nodes]. rewrite W2. apply in_nodes. auto.
    - intros n Hn Nn. unfold p, project_of in Hn, Nn. cbn [pj_nodes pj_start] in Hn, Nn. rewrite W1 in Nn. apply in_nodes in Hn as [Hn|[->|Hn]]; [congruence| |].
      + destruct last_free as (x & Hx & L). exists (RE (num names x) finish (inject_Z 0) FS). split; [|split; reflexivity]. apply in_edges_p.
        exists (Ed (num names x) finish 0 FS). split; [|reflexivity]. rewrite !in_app_iff. right. right. apply W10. exists x. auto.
      + apply small_num in Hn as (x & Hx & ->). destruct (dec_dependency e_to (num names (wk_id x))) as [(e & He & De & Te)|L].
        * exists (RE (e_from e) (e_to e) (inject_Z (e_lag e)) (e_type e)). split; [apply in_edges_p; exists e; split; [apply in_or_app; left; exact He|reflexivity]|]. auto.
        * exists (RE start (num names (wk_id x)) (inject_Z 0) FS). split; [|split; reflexivity]. apply in_edges_p.
          exists (Ed start (num names (wk_id x)) 0 FS). split; [|reflexivity]. rewrite !in_app_iff. right. left. apply W9. exists (wk_id x). split; [apply id_in, Hx|auto].
    - intros n Hn Nn. unfold p, project_of in Hn, Nn. cbn [pj_nodes pj_finish] in Hn, Nn. rewrite W2 in Nn.
      assert (Small : (n < List.length table)%nat -> exists e, In e (pj_edges p) /\ re_from e = n /\ is_dependency (re_type e) = true).
      { clear Hn Nn. intros Hn. apply small_num in Hn as (x & Hx & ->). destruct (dec_dependency e_from (num names (wk_id x))) as [(e & He & De & Te)|L].
        * exists (RE (e_from e) (e_to e) (inject_Z (e_lag e)) (e_type e)). split; [apply in_edges_p; exists e; split; [apply in_or_app; left; exact He|reflexivity]|]. auto.
        * exists (RE (num names (wk_id x)) finish (inject_Z 0) FS). split; [|split; reflexivity]. apply in_edges_p.
          exists (Ed (num names (wk_id x)) finish 0 FS). split; [|reflexivity]. rewrite !in_app_iff. right. right. apply W10. exists (wk_id x). split; [apply id_in, Hx|auto]. }
      apply in_nodes in Hn as [->|[Hn|Hn]]; [|congruence|apply Small, Hn]. clear Small Nn.
      destruct first_free as (x & Hx & L). exists (RE start (num names x) (inject_Z 0) FS). split; [|split; reflexivity]. apply in_edges_p.
      exists (Ed start (num names x) 0 FS). split; [|reflexivity]. rewrite !in_app_iff. right. left. apply W9. exists x. auto.
    - intros e He. apply in_edges_p in He as (e0 & He & ->). unfold p, project_of. cbn [re_from re_to re_type pj_start pj_finish]. rewrite W1, W2.
      destruct (edge_cases e0 He) as [(x & l & z & Hx & Hl & Hp & Ez & ->)|[(x & Hx & ->)|(x & Hx & ->)]]; cbn [link_edge e_from e_to e_type].
      + assert (A := num_small _ Hp). assert (B := num_small _ (id_in x Hx)). split; [lia|]. split; [lia|]. intros [C|C]; lia.
      + assert (A := num_small _ Hx). split; [lia|]. split; [congruence|]. auto.
      + assert (A := num_small _ Hx). split; [congruence|]. split; [lia|]. auto.
    - intros e e' He He' T T'. apply in_edges_p in He as (e0 & He & ->), He' as (e1 & He' & ->). cbn [re_from re_to re_type] in *.
      destruct (edge_cases e0 He) as [(x & l & z & Hx & Hl & Hp & Ez & ->)|[(x & Hx & ->)|(x & Hx & ->)]]; [|discriminate|discriminate].
      destruct (edge_cases e1 He') as [(y & m & z' & Hy & Hm & Hp' & Ez' & ->)|[(y & Hy & ->)|(y & Hy & ->)]]; [|discriminate|discriminate].
      cbn [link_edge e_from e_to e_type] in *. destruct (ft_chains _ _ _ _ _ _ _ Hok x y l m Hx Hy Hl Hm T T') as [C1 C2]. split; intros E.
      + apply num_inj in E; [|apply id_in, Hx]. rewrite (C1 E). reflexivity.
      + apply num_inj in E; [|exact Hp]. rewrite (C2 E). reflexivity.
    - intros e He. cbn. split; [lia|reflexivity].
    - intros n. unfold p, project_of. cbn [pj_unit]. destruct (unit_cases n) as [(x & Hx & ->)| ->]; [|split; constructor].
      destruct (W11 x Hx) as (_ & _ & ->). apply (ft_reqs _ _ _ _ _ _ _ Hok x Hx).
    - intros n. unfold p, project_of. cbn [pj_unit pj_counts]. destruct (unit_cases n) as [(x & Hx & ->)| ->].
      + destruct (W11 x Hx) as (-> & _ & ->). destruct (ft_amounts _ _ _ _ _ _ _ Hok x Hx). split; [assumption|]. split; [intros ? ? []|assumption].
      + split; [intros ? []|]. split; [intros ? ? []|cbn; lia].
    - intros e He T. apply in_edges_p in He as (e0 & He & ->). cbn [re_from re_to re_type] in *. unfold p, project_of. cbn [pj_unit].
      destruct (edge_cases e0 He) as [(x & l & z & Hx & Hl & Hp & Ez & ->)|[(x & Hx & ->)|(x & Hx & ->)]]; [|discriminate|discriminate].
      cbn [link_edge e_from e_to e_type] in *. assert (Hp' := Hp). unfold names in Hp' at 1. apply in_map_iff in Hp' as (y & Ey & Hy).
      rewrite <- Ey. destruct (W11 x Hx) as (_ & _ & ->), (W11 y Hy) as (_ & _ & ->). apply (ft_chain_reqs _ _ _ _ _ _ _ Hok x y l); auto.
    - intros n. unfold p, project_of. cbn [pj_unit]. destruct (unit_cases n) as [(x & Hx & ->)| ->]; [|reflexivity]. apply (W11 x Hx).
    - exact H1.
    - intros n r c. unfold p, project_of. cbn [pj_unit]. destruct (unit_cases n) as [(x & Hx & ->)| ->]; [|intros []].
      destruct (W11 x Hx) as (_ & _ & ->). apply (ft_productivity _ _ _ _ _ _ _ Hok x r c Hx).
    - intros e He T. apply in_edges_p in He as (e0 & He & ->). cbn [re_lag re_type] in *.
      destruct (edge_cases e0 He) as [(x & l & z & Hx & Hl & Hp & Ez & ->)|[(x & Hx & ->)|(x & Hx & ->)]]; cbn [link_edge e_lag e_type] in *; [|apply Qle_refl|apply Qle_refl].
      destruct (ft_lags _ _ _ _ _ _ _ Hok x l Hx Hl) as (z' & Ez' & _ & Hz). assert (z' = z) by (apply inject_Z_injective; rewrite <- Ez, <- Ez'; reflexivity). subst z'. specialize (Hz T).
      change 0%Q with (inject_Z 0). rewrite <- Zle_Qle. exact Hz.
    - split; [exact H2|]. split; [exact H3|]. split.
      + intros e He. apply in_edges_p in He as (e0 & He & ->). cbn [re_lag]. rewrite Qceiling_Z.
        destruct (edge_cases e0 He) as [(x & l & z & Hx & Hl & Hp & Ez & ->)|[(x & Hx & ->)|(x & Hx & ->)]]; cbn [link_edge e_lag]; [|exact H3|exact H3].
        destruct (ft_lags _ _ _ _ _ _ _ Hok x l Hx Hl) as (z' & Ez' & Hz & _). assert (z' = z) by (apply inject_Z_injective; rewrite <- Ez, <- Ez'; reflexivity). subst z'. exact Hz.
      + rewrite S1. clear -S1 S2 H1 H2 H3 H4. revert H4. generalize TIME_INF. intros i H4.
        assert (X : (1 + Z.of_nat (2 + List.length table) + 2 * Z.of_nat (List.length (pj_edges p))) <= 3 + 5 * Z.of_nat (List.length table) + 2 * Z.of_nat (List.length (flat_map wk_links table))) by lia.
        nia.
  Qed.
End Table.
Lemma nth_error_num names x : In x names -> nth_error names (num names x) = Some x.
Proof.
  induction names as [|y l IH]; [intros []|]. intros H. cbn [num]. destruct (str_eqb y x) eqn:E.
  - apply str_eqb_true in E. subst. reflexivity.
  - cbn [nth_error]. apply IH. destruct H as [->|H]; [|exact H]. rewrite str_eqb_refl in E. discriminate.
Qed.

(** ** C106 *)
(** A table of works without loops is scheduled: reading it gives a work graph, and scheduling
    that with lag strategy AUTO gives a schedule that can be carried out and in which every
    work of the table is carried out, every link of the table to a work of the table being
    kept. Otherwise the groups of inseparable works depend on each other cyclically, which
    needs inseparable links, or some work of the table has no allowed contractor with enough
    workers. *)
Theorem table_scheduled {T} (run : graph -> list nat -> (nat -> Z) -> list contractor -> (nat -> work_spec) -> PipelineModel.scheduled T)
  (to_float : str -> res Q) (value : str -> Q)
  (topological_sort : list nat -> list (nat * nat) -> option (list nat)) (set_order listing : list nat -> list nat)
  (kinds : list nat) (find_work_resources : str -> Z -> list req) (start finish : nat) (table : list work)
  (productivity : productivities) (apt D Lg : Z) (cs : list contractor) (spec : str -> work_spec) (depth : nat) :
  scheduler_correct run productivity apt ->
  topological_sort_ok topological_sort -> (forall l, Permutation (set_order l) l) -> (forall l, Permutation (listing l) l) ->
  table <> [] -> NoDup (map wk_id table) -> ~ In (lit "-1") (map wk_id table) ->
  (forall w, In w table -> writable to_float value w /\ volumes_given kinds w) ->
  (List.length table <= start)%nat -> (List.length table <= finish)%nat -> start <> finish ->
  let names := map wk_id table in let asked := asks kinds find_work_resources in
  fit_table value asked table productivity apt D Lg ->
  contractors_ok cs -> cs <> [] ->
  (forall ct x r, In ct cs -> In x table -> In r (asked x) -> In (r_kind r) (map fst (ct_workers ct))) ->
  (forall x, In x table -> fit_spec cs (asked x) (spec (wk_id x))) ->
  (2 + 5 * List.length table + 2 * List.length (flat_map wk_links table) <= depth)%nat ->
  exists w r,
    table_schedule run listing to_float topological_sort set_order kinds find_work_resources start finish depth LagAuto spec cs
      (map written table) = Some (w, r) /\
    (forall x, In x table -> pj_volume (project_of w) (num names (wk_id x)) = inject_Z (wk_volume x) /\
       u_reqs (pj_unit (project_of w) (num names (wk_id x))) = asked x) /\
    ((exists sd w' s use_lag t, r = Scheduled sd (w', s) /\
        carries_out (project_of w) use_lag cs (node_spec names spec) w' sd t /\
        (forall x, In x table -> exists b e, work_span sd (num names (wk_id x)) b e) /\
        (forall x l su fu sv fv, In x table -> In l (wk_links x) -> In (lk_pred l) names ->
           work_span sd (num names (lk_pred l)) su fu -> work_span sd (num names (wk_id x)) sv fv -> link_kept value l su fu sv fv)) \/
     (r = CircularGraph /\ groups_cyclic (project_of w) /\
        exists x l, In x table /\ In l (wk_links x) /\ In (lk_pred l) names /\ lk_type l = IFS) \/
     (r = NotEnoughWorkers /\ exists x, In x table /\
        forall ct, In ct cs -> sp_contractors (spec (wk_id x)) = [] \/ In (ct_id ct) (sp_contractors (spec (wk_id x))) -> ~ able ct (asked x))).
Proof.
  intros Hrun Hsort Hset Hlist Hne Hnd Hno Hw Hs Hf Hsf names asked Hok Hcs Hcn Hkinds Hspec Hdepth.
  destruct (table_makes_graph to_float value topological_sort set_order kinds find_work_resources start finish table Hsort Hset Hne Hnd Hno Hw Hs Hf Hsf)
    as (keep & w & own & es & ef & middle & W0 & W1 & W2 & W3 & W4 & W5 & W6 & W7 & _ & W8 & W9 & W10 & W11 & W12 & W13 & W14).
  specialize (W8 (ft_loops _ _ _ _ _ _ _ Hok)). fold names in W4, W7, W9, W10, W11.
  assert (W11' : forall x, In x table -> let u := g_unit (wg_graph w) (num names (wk_id x)) in
          u_volume u = wk_volume x /\ (u_service u = true <-> u_reqs u = []) /\ u_reqs u = asked x).
  { intros x Hx. destruct (W11 x Hx) as (A & B & C & E). split; [exact A|]. split; [exact B|]. unfold asked, asks. unfold reqs_given in C.
    destruct (wk_reqs x) as [[[least greatest] volume]|]; [apply C|apply E; reflexivity]. }
  clear W11. rename W11' into W11.
  assert (Hp : project_ok (project_of w) productivity apt D Lg) by exact (table_project_ok value asked table productivity apt D Lg start finish Hok Hne Hnd Hs Hf Hsf keep w own es ef middle W1 W2 W3 W4 W5 W6 W7 W8 W9 W10 W11 W12 W13 W14).
  assert (Hsz : List.length (pj_nodes (project_of w)) = (2 + List.length table)%nat /\
    (List.length (pj_edges (project_of w)) <= 2 * List.length table + List.length (flat_map wk_links table))%nat) by exact (sizes value asked table start finish Hs Hf Hsf keep w own es ef middle W1 W2 W3 W4 W6 W7 W9 W10 W11 W12 W13 W14).
  assert (Hown := in_own value asked table productivity apt D Lg start finish Hok Hs Hf Hsf keep w own es ef W1 W2 W7 W8 W9 W10 W14). fold names in Hown.
  assert (Hunit : forall n, (exists x, In x table /\ n = num names (wk_id x)) \/ ((List.length table <= n)%nat /\ g_unit (wg_graph w) n = WU true [] 0)).
  { intros n. destruct (Nat.lt_ge_cases n (List.length table)) as [H|H]; [left; eapply small_num; eassumption|right; split; [exact H|apply W14, H]]. }
  assert (Hns : forall x, In x table -> node_spec names spec (num names (wk_id x)) = spec (wk_id x)).
  { intros x Hx. unfold node_spec. rewrite nth_error_num by (apply in_map, Hx). reflexivity. }
  assert (Hnd' : forall n, (List.length table <= n)%nat -> node_spec names spec n = WSpec [] [] None false).
  { intros n H. unfold node_spec. assert (nth_error names n = None) as ->; [|reflexivity]. apply nth_error_None. unfold names. rewrite map_length. exact H. }
  assert (Hspec' : specified_ok (project_of w) cs (node_spec names spec)).
  { constructor.
    - intros n. cbn [project_of pj_unit]. destruct (Hunit n) as [(x & Hx & ->)|(H & ->)].
      + rewrite Hns by exact Hx. destruct (W11 x Hx) as (_ & _ & ->). destruct (Hspec x Hx) as (A & B & C & _). auto.
      + rewrite Hnd' by exact H. cbn. split; [split; [intros ? ? []|exact I]|]. split; [reflexivity|]. split; [intros ? ? ? ? _ _ []|]. intros _ r [].
    - intros n. cbn [plain_graph g_unit project_of pj_unit]. destruct (Hunit n) as [(x & Hx & ->)|(H & ->)].
      + rewrite Hns by exact Hx. destruct (W11 x Hx) as (_ & _ & ->). apply (Hspec x Hx).
      + rewrite Hnd' by exact H. left. reflexivity.
    - intros n r k. cbn [plain_graph g_unit project_of pj_unit]. destruct (Hunit n) as [(x & Hx & ->)|(H & ->)]; [|intros []].
      rewrite Hns by exact Hx. destruct (W11 x Hx) as (_ & _ & ->). apply (Hspec x Hx).
    - intros n Hn. destruct (Hunit n) as [(x & Hx & ->)|(H & _)]; [|rewrite Hnd' by exact H; reflexivity]. exfalso. apply Hn. cbn [project_of pj_nodes].
      rewrite W3. right. apply in_or_app. left. apply (Permutation_in _ (Permutation_sym W4)), in_map, in_map, Hx. }
  assert (Hk : forall ct n r, In ct cs -> In n (pj_nodes (project_of w)) -> In r (u_reqs (pj_unit (project_of w) n)) -> In (r_kind r) (map fst (ct_workers ct))).
  { intros ct n r Hct _. cbn [project_of pj_unit]. destruct (Hunit n) as [(x & Hx & ->)|(_ & ->)]; [|intros []]. destruct (W11 x Hx) as (_ & _ & ->). apply Hkinds; assumption. }
  assert (R := auto_pipeline run productivity apt D Lg (project_of w) cs (node_spec names spec) listing depth Hp Hrun Hcs Hspec' Hlist ltac:(lia) Hk). cbv zeta in R.
  set (r := lag_pipeline run (node_spec names spec) listing depth LagAuto (project_of w) (Given cs)) in *.
  assert (Hin : forall x l, In x table -> In l (wk_links x) -> In (lk_pred l) names ->
    exists z, (value (lk_lag l) == inject_Z z)%Q /\ In (RE (num names (lk_pred l)) (num names (wk_id x)) (inject_Z z) (lk_type l)) (pj_edges (project_of w))).
  { intros x l Hx Hl Hpr. destruct (ft_lags _ _ _ _ _ _ _ Hok x l Hx Hl) as (z & Ez & _). exists z. split; [exact Ez|].
    cbn [project_of pj_edges]. rewrite W6. apply in_map_iff. exists (link_edge table x l z). split; [reflexivity|]. apply in_or_app. left.
    apply Hown. exists x, l, z. auto 6. }
  assert (Hkept : forall sd w' use_lag t, carries_out (project_of w) use_lag cs (node_spec names spec) w' sd t ->
    (forall x, In x table -> exists b e, work_span sd (num names (wk_id x)) b e) /\
    (forall x l su fu sv fv, In x table -> In l (wk_links x) -> In (lk_pred l) names ->
       work_span sd (num names (lk_pred l)) su fu -> work_span sd (num names (wk_id x)) sv fv -> link_kept value l su fu sv fv)).
  { intros sd w' use_lag t (all & _ & _ & C1 & C2 & _). split.
    - intros x Hx. apply C1. cbn [project_of pj_nodes]. rewrite W3. right. apply in_or_app. left.
      apply (Permutation_in _ (Permutation_sym W4)), in_map, in_map, Hx.
    - intros x l su fu sv fv Hx Hl Hpr Su Sv. destruct (Hin x l Hx Hl Hpr) as (z & Ez & He).
      assert (H := C2 _ su fu sv fv He Su Sv). unfold honoured in H. cbn [re_type re_lag re_from re_to] in H. unfold link_kept.
      assert (O : forall k a b, work_span sd k a b -> a <= b).
      { intros k a b ((n & y & Hy & Dy & Sy) & _ & A). specialize (A n y Hy Dy). lia. }
      assert (O1 := O _ _ _ Su). assert (O2 := O _ _ _ Sv).
      destruct (lk_type l).
      + exact H.
      + destruct use_lag; [split; apply H|]. lia.
      + apply H.
      + apply H.
      + rewrite Ez. exact H. }
  exists w, r. split.
  - unfold table_schedule. rewrite W0. destruct cs as [|c cs']; [congruence|].
    replace (map c_id (map written table)) with names by (unfold names; rewrite map_map; reflexivity). reflexivity.
  - split; [intros x Hx; cbn [project_of pj_volume pj_unit]; destruct (W11 x Hx) as (-> & _ & ->); auto|].
    destruct R as [(sd0 & w0 & s0 & t0 & sd1 & w1 & s1 & t1 & (A0 & _) & (A1 & _) & [(_ & E)|(_ & E)])|[(E & G)|(E & n & Hn & No)]].
    + left. exists sd0, w0, s0, false, t0. split; [exact E|]. split; [exact A0|]. eapply Hkept, A0.
    + left. exists sd1, w1, s1, true, t1. split; [exact E|]. split; [exact A1|]. eapply Hkept, A1.
    + right. left. split; [exact E|]. split; [exact G|].
      assert (Dec : (exists e, In e (pj_edges (project_of w)) /\ re_type e = IFS) \/ forall e, In e (pj_edges (project_of w)) -> re_type e <> IFS).
      { generalize (pj_edges (project_of w)). clear. intros l. induction l as [|e l IH]; [right; intros e []|].
        destruct IH as [(e' & H1 & H2)|IH]; [left; exists e'; split; [right; exact H1|exact H2]|].
        destruct (re_type e) eqn:Te; try (right; intros e' [<-|H]; [congruence|auto]). left. exists e. split; [left; reflexivity|exact Te]. }
      destruct Dec as [(e & He & Te)|N]; [|exfalso; exact (single_works_not_cyclic _ _ _ _ _ Hp N G)].
      cbn [project_of pj_edges] in He. rewrite W6 in He. apply in_map_iff in He as (e0 & <- & He). cbn [re_type] in Te. rewrite !in_app_iff in He.
      destruct He as [He|[He|He]]; [|apply W9 in He as (? & _ & -> & _); discriminate|apply W10 in He as (? & _ & -> & _); discriminate].
      apply Hown in He. destruct He as (x & l & z & Hx & Hl & Hpr & _ & ->). exists x, l. auto.
    + right. right. split; [exact E|]. unfold nobody_able in No. cbn [plain_graph g_unit project_of pj_unit] in No.
      destruct (Hunit n) as [(x & Hx & ->)|(H & Eu)].
      * exists x. split; [exact Hx|]. rewrite (Hns x Hx) in No. destruct (W11 x Hx) as (_ & _ & E'). rewrite E' in No. exact No.
      * exfalso. rewrite (Hnd' n H), Eu in No. cbn in No. destruct cs as [|c cs']; [congruence|]. apply (No c (or_introl eq_refl) (or_introl eq_refl)). intros r' [].
Qed.
Print Assumptions table_scheduled.
(** In particular with HEFT and the default estimator of times. *)
Theorem table_scheduled_heft
  (to_float : str -> res Q) (value : str -> Q)
  (topological_sort : list nat -> list (nat * nat) -> option (list nat)) (set_order listing : list nat -> list nat)
  (kinds : list nat) (find_work_resources : str -> Z -> list req) (start finish : nat) (table : list work)
  (productivity : productivities) (apt D Lg : Z) (cs : list contractor) (spec : str -> work_spec) (depth : nat) :
  topological_sort_ok topological_sort -> (forall l, Permutation (set_order l) l) -> (forall l, Permutation (listing l) l) ->
  table <> [] -> NoDup (map wk_id table) -> ~ In (lit "-1") (map wk_id table) ->
  (forall w, In w table -> writable to_float value w /\ volumes_given kinds w) ->
  (List.length table <= start)%nat -> (List.length table <= finish)%nat -> start <> finish ->
  let names := map wk_id table in let asked := asks kinds find_work_resources in
  fit_table value asked table productivity apt D Lg ->
  contractors_ok cs -> cs <> [] ->
  (forall ct x r, In ct cs -> In x table -> In r (asked x) -> In (r_kind r) (map fst (ct_workers ct))) ->
  (forall x, In x table -> fit_spec cs (asked x) (spec (wk_id x))) ->
  (2 + 5 * List.length table + 2 * List.length (flat_map wk_links table) <= depth)%nat ->
  exists w r,
    table_schedule (heft_scheduler productivity apt) listing to_float topological_sort set_order kinds find_work_resources start finish depth LagAuto
      spec cs (map written table) = Some (w, r) /\
    (forall x, In x table -> pj_volume (project_of w) (num names (wk_id x)) = inject_Z (wk_volume x) /\
       u_reqs (pj_unit (project_of w) (num names (wk_id x))) = asked x) /\
    ((exists sd w' s use_lag t, r = Scheduled sd (w', s) /\
        carries_out (project_of w) use_lag cs (node_spec names spec) w' sd t /\
        (forall x, In x table -> exists b e, work_span sd (num names (wk_id x)) b e) /\
        (forall x l su fu sv fv, In x table -> In l (wk_links x) -> In (lk_pred l) names ->
           work_span sd (num names (lk_pred l)) su fu -> work_span sd (num names (wk_id x)) sv fv -> link_kept value l su fu sv fv)) \/
     (r = CircularGraph /\ groups_cyclic (project_of w) /\
        exists x l, In x table /\ In l (wk_links x) /\ In (lk_pred l) names /\ lk_type l = IFS) \/
     (r = NotEnoughWorkers /\ exists x, In x table /\
        forall ct, In ct cs -> sp_contractors (spec (wk_id x)) = [] \/ In (ct_id ct) (sp_contractors (spec (wk_id x))) -> ~ able ct (asked x))).
Proof. exact (table_scheduled (heft_scheduler productivity apt) to_float value topological_sort set_order listing kinds find_work_resources start finish table productivity apt D Lg cs spec depth (heft_scheduler_correct productivity apt)). Qed.
Print Assumptions table_scheduled_heft.

(** Five works with links of all types, a link to a work that is not in the table, and a
    contractor specified for one of them. *)
Definition tx_reqs : option (list (nat * Z) * list (nat * Z) * list (nat * Z)) := Some ([(0%nat, 1)], [(0%nat, 3)], [(0%nat, 12)]).
Definition tx_table : list work :=
  [ParserTheorems.Wk (lit "d") [Lk (lit "c") IFS (lit "0"); Lk (lit "gone") FS (lit "1")] 10 tx_reqs;
   ParserTheorems.Wk (lit "a") [] 10 tx_reqs;
   ParserTheorems.Wk (lit "b") [Lk (lit "a") SS (lit "2")] 10 tx_reqs;
   ParserTheorems.Wk (lit "c") [Lk (lit "b") FF (lit "1"); Lk (lit "a") FFS (lit "1")] 10 tx_reqs;
   ParserTheorems.Wk (lit "e") [Lk (lit "d") FS (lit "2")] 1 None].
Definition tx_spec (s : str) : work_spec := if str_eqb s (lit "a") then WSpec [1%nat] [] None false else WSpec [] [] None false.
Definition tx_productivity : productivities := EstimatorTheorems.ex_table.
Lemma tx_rows (P : work -> Prop) : P (nth 0 tx_table (ParserTheorems.Wk [] [] 0 None)) -> P (nth 1 tx_table (ParserTheorems.Wk [] [] 0 None)) ->
  P (nth 2 tx_table (ParserTheorems.Wk [] [] 0 None)) -> P (nth 3 tx_table (ParserTheorems.Wk [] [] 0 None)) -> P (nth 4 tx_table (ParserTheorems.Wk [] [] 0 None)) ->
  forall x, In x tx_table -> P x.
Proof. intros P0 P1 P2 P3 P4 x Hx. cbn in Hx. repeat destruct Hx as [<-|Hx]; [..|destruct Hx]; assumption. Qed.
Lemma tx_fit : fit_table one_value (asks [0%nat] no_resources) tx_table tx_productivity 0 12 2.
Proof.
  assert (A : forall x, In x tx_table -> asks [0%nat] no_resources x = [Req 0 12 1 3] \/ asks [0%nat] no_resources x = []).
  { apply tx_rows; cbn; auto. }
  constructor.
  - set (rank := fun s => if str_eqb s (lit "a") then 1%nat else if str_eqb s (lit "b") then 2%nat else if str_eqb s (lit "c") then 3%nat else if str_eqb s (lit "d") then 4%nat else if str_eqb s (lit "e") then 5%nat else 0%nat).
    assert (R : forall a b, precedes tx_table a b -> (rank a < rank b)%nat).
    { intros a b (_ & x & l & Hx & Hl & <- & <-). revert x Hx Hl. apply (tx_rows (fun x => In l (wk_links x) -> (rank (lk_pred l) < rank (wk_id x))%nat)); cbn; intros H; repeat destruct H as [<-|H]; try destruct H; vm_compute; lia. }
    intros a C. assert (G : forall a b, clos_trans str (precedes tx_table) a b -> (rank a < rank b)%nat) by (induction 1 as [x y H|x y z _ I1 _ I2]; [apply R, H|lia]).
    specialize (G a a C). lia.
  - intros x l Hx. revert x Hx. refine (tx_rows _ _ _ _ _ _); cbn; intros H; repeat destruct H as [<-|H]; try destruct H; cbn;
      [exists 0|exists 1|exists 2|exists 1|exists 1|exists 2]; repeat split; try reflexivity; try lia; try discriminate.
  - intros x k Hx Hk. revert x Hx. apply tx_rows; destruct Hk as [-> | ->]; cbn; repeat constructor; cbn; intuition discriminate.
  - assert (U : forall x l, In x tx_table -> In l (wk_links x) -> lk_type l = IFS -> wk_id x = lit "d" /\ lk_pred l = lit "c").
    { intros x l Hx. revert x Hx. refine (tx_rows _ _ _ _ _ _); cbn; intros H; repeat destruct H as [<-|H]; try destruct H; cbn; intros E; try discriminate; auto. }
    intros x y l m Hx Hy Hl Hm Tl Tm. destruct (U x l Hx Hl Tl) as [-> ->], (U y m Hy Hm Tm) as [-> ->]. tauto.
  - intros x y l Hx Hy Hl Tl Ep. assert (wk_id y = lit "c").
    { rewrite <- Ep. revert Hl Tl. revert x Hx. refine (tx_rows _ _ _ _ _ _); cbn; intros H; repeat destruct H as [<-|H]; try destruct H; cbn; intros E; try discriminate; auto. }
    assert (wk_id x = lit "d").
    { revert Hl Tl. revert x Hx. refine (tx_rows _ _ _ _ _ _); cbn; intros H0; repeat destruct H0 as [<-|H0]; try destruct H0; cbn; intros E; try discriminate; auto. }
    assert (asks [0%nat] no_resources y = [Req 0 12 1 3]) as ->.
    { revert H. revert y Hy Ep. intros y Hy _. revert y Hy. refine (tx_rows _ _ _ _ _ _); cbn; intros E; try discriminate; reflexivity. }
    assert (asks [0%nat] no_resources x = [Req 0 12 1 3]) as ->.
    { revert H0. clear -Hx. revert x Hx. refine (tx_rows _ _ _ _ _ _); cbn; intros E; try discriminate; reflexivity. }
    repeat constructor; cbn; lia.
  - intros x Hx. destruct (A x Hx) as [-> | ->]; (split; repeat constructor; cbn; try lia; intuition).
  - intros x Hx. split.
    + revert x Hx. apply tx_rows; cbn; lia.
    + intros r. destruct (A x Hx) as [-> | ->]; [intros [<-|[]]; cbn; lia|intros []].
  - intros x r c Hx. destruct (A x Hx) as [-> | ->]; [intros [<-|[]]|intros []]. exists (fun _ => 1%Q). split; [reflexivity|]. split; [reflexivity|cbn; discriminate].
  - split; [lia|]. split; [lia|]. split; [lia|]. change TIME_INF with 2000000000. cbn. lia.
Qed.
Lemma tx_hypotheses :
  NoDup (map wk_id tx_table) /\ ~ In (lit "-1") (map wk_id tx_table) /\
  (forall w, In w tx_table -> writable one_digit one_value w /\ volumes_given [0%nat] w) /\
  contractors_ok lx_contractors /\
  (forall ct x r, In ct lx_contractors -> In x tx_table -> In r (asks [0%nat] no_resources x) -> In (r_kind r) (map fst (ct_workers ct))) /\
  (forall x, In x tx_table -> fit_spec lx_contractors (asks [0%nat] no_resources x) (tx_spec (wk_id x))) /\
  (2 + 5 * List.length tx_table + 2 * List.length (flat_map wk_links tx_table) <= 40)%nat.
Proof.
  assert (A : forall x, In x tx_table -> asks [0%nat] no_resources x = [Req 0 12 1 3] \/ asks [0%nat] no_resources x = []).
  { apply tx_rows; cbn; auto. }
  split; [vm_compute; repeat constructor; cbn; intuition discriminate|]. split; [vm_compute; intuition discriminate|]. split; [|split; [apply lx_hypotheses|split; [|split; [|cbn; lia]]]].
  - assert (Hel : forall s, In s [lit "gone"; lit "a"; lit "b"; lit "c"; lit "d"; lit "0"; lit "1"; lit "2"] -> element s).
    { intros s Hs. unfold element, no_comma. cbn in Hs. repeat destruct Hs as [<-|Hs]; [..|destruct Hs]; cbn; intuition discriminate. }
    assert (Hst : forall s, In s [lit "gone"; lit "a"; lit "b"; lit "c"; lit "d"] -> stable_name s).
    { intros s Hs. cbn in Hs. repeat destruct Hs as [<-|Hs]; [..|destruct Hs]; left; reflexivity. }
    apply tx_rows; split; try (intros l Hl; cbn in Hl; repeat destruct Hl as [<-|Hl]; [..|destruct Hl]; cbn [lk_pred lk_lag];
        (split; [apply Hel|split; [apply Hst|split; [apply Hel|reflexivity]]]); cbn; auto 10);
      try (intros k lo hi [<-|[]] _ _ _; eexists; reflexivity).
    all: first [exact I|intros l []].
  - intros ct x r Hct Hx. destruct (A x Hx) as [-> | ->]; [|intros []]. intros [<-|[]]. destruct Hct as [<-|[<-|[]]]; cbn; auto.
  - intros x Hx. unfold fit_spec, tx_spec, spec_ok, spec_fits.
    assert (S : forall a, let s := if str_eqb (wk_id x) (lit "a") then WSpec [1%nat] [] None false else WSpec [] [] None false in a = sp_workers s -> a = [] /\ sp_time s = None).
    { intros a s ->. unfold s. destruct (str_eqb (wk_id x) (lit "a")); auto. }
    destruct (S _ eq_refl) as [E1 E2]. rewrite E1, E2. split; [split; [intros ? ? []|exact I]|]. split; [reflexivity|]. split; [|split; [left; reflexivity|intros ? ? _ []]].
    split; [intros ? ? ? ? _ _ []|]. destruct (A x Hx) as [-> | ->]; [discriminate|intros _ r []].
Qed.
(** The stages of the works in the schedule with their times: 5 is the start, 6 the finish. Work c,
    number 3, has its last stage after work b, number 2, which starts when a part of work a is done. *)
Example table_scheduled_ex :
  match table_schedule (heft_scheduler tx_productivity 0) (fun l => l) one_digit kahn_sort (fun l => rev l) [0%nat] no_resources 5 6 40 LagAuto
          tx_spec lx_contractors (map written tx_table) with
  | Some (w, Scheduled sd _) => map (fun x => (decode (fst x), sw_start (snd x), sw_finish (snd x))) sd
  | _ => []
  end = [(6%nat, None, 13, 13); (4%nat, None, 13, 13); (0%nat, None, 7, 11); (3%nat, None, 6, 7); (3%nat, Some 0%nat, 1, 4);
         (2%nat, None, 2, 6); (1%nat, None, 2, 5); (1%nat, Some 1%nat, 1, 2); (1%nat, Some 0%nat, 0, 1); (5%nat, None, 0, 0)].
Proof. vm_compute. reflexivity. Qed.
