(** Editing of work graphs: copies, insertion of graphs and works, generated sub-works and
    deletion. *)
From Coq Require Import ZArith List Bool Lia Relations Permutation Arith.
From Verif Require Import TimeModel MomentumModel GraphModel TopoModel TraverseModel Digraph TraverseProofs TraverseTheorems
  ScheduleSpec GraphEditModel GraphEditSpec GraphEditProofs GraphDeleteProofs.
Import ListNotations.
Local Open Scope nat_scope.

(** ** A check that a concrete graph is a project (for the examples) *)
Fixpoint distinct (l : list nat) : bool := match l with [] => true | x :: r => negb (mem x r) && distinct r end.
Lemma distinct_nodup l : distinct l = true -> NoDup l.
Proof.
  induction l as [|x l IH]; [constructor|]. cbn [distinct]. rewrite andb_true_iff, negb_true_iff, mem_nin. intros [H1 H2]. constructor; auto.
Qed.
Definition project_check (w : work_graph) : bool :=
  let l := wg_nodes w in let es := g_edges (wg_graph w) in
  distinct l
  && forallb (fun e => mem (e_from e) l && mem (e_to e) l && Nat.ltb (pos l (e_from e)) (pos l (e_to e))) es
  && mem (wg_start w) l && mem (wg_finish w) l
  && forallb (fun n => Nat.eqb n (wg_start w) || existsb (fun e => Nat.eqb (e_to e) n) es) l
  && forallb (fun n => Nat.eqb n (wg_finish w) || existsb (fun e => Nat.eqb (e_from e) n) es) l.
Lemma project_check_sound w : project_check w = true -> project w.
Proof.
  unfold project_check. cbv zeta. rewrite !andb_true_iff, !mem_in, !forallb_forall. intros (((((Hn & He) & Hs) & Hf) & Hp) & Hc).
  assert (Hnd := distinct_nodup _ Hn).
  assert (Cl : forall x y, linked (wg_graph w) x y -> In x (wg_nodes w) /\ In y (wg_nodes w)).
  { intros x y (e & H & <- & <-). apply He in H. rewrite !andb_true_iff, !mem_in in H. tauto. }
  assert (Tp : topological (linked (wg_graph w)) (wg_nodes w)).
  { intros x y (e & H & <- & <-) H1 H2. apply comes_before_pos; [exact Hnd|]. apply He in H. rewrite !andb_true_iff, Nat.ltb_lt in H. tauto. }
  constructor; [eapply topological_acyclic; eauto|exact Cl|exact Hnd| |].
  - split; [exact Hs|]. intros x Hx. apply Hp, orb_true_iff in Hx as [E|E]; [left; apply Nat.eqb_eq; exact E|right].
    apply existsb_exists in E as (e & H & E). apply Nat.eqb_eq in E. exists (e_from e), e. auto.
  - split; [exact Hf|]. intros x Hx. apply Hc, orb_true_iff in Hx as [E|E]; [left; apply Nat.eqb_eq; exact E|right].
    apply existsb_exists in E as (e & H & E). apply Nat.eqb_eq in E. exists (e_to e), e. auto.
Qed.

(** The same edge between renamed works: of the same type, with the same lag. *)
Definition renamed (ren : nat -> nat) (e : edge) : edge := Ed (ren (e_from e)) (ren (e_to e)) (e_lag e) (e_type e).

(** ** C82: a copy of a graph is the same project under new ids *)
Theorem copy_keeps_project (ren : nat -> nat) (w : work_graph) : project w -> one_to_one ren (wg_nodes w) ->
  exists w', copy_graph ren w = Some (Ends w') /\ project w'
    /\ wg_start w' = ren (wg_start w) /\ wg_finish w' = ren (wg_finish w)
    /\ Permutation (wg_nodes w') (map ren (wg_nodes w)) /\ topological (linked (wg_graph w')) (wg_nodes w')
    /\ (forall n, In n (wg_nodes w) -> g_unit (wg_graph w') (ren n) = g_unit (wg_graph w) n
         /\ edges_to (wg_graph w') (ren n) = map (renamed ren) (edges_to (wg_graph w) n))
    /\ Permutation (g_edges (wg_graph w')) (map (renamed ren) (g_edges (wg_graph w)))
    /\ (forall a b, In a (wg_nodes w) -> In b (wg_nodes w) -> (precedes w' (ren a) (ren b) <-> precedes w a b)).
Proof.
  intros Hp Hi. set (u := copied_unit ren w (fun _ => no_unit)). set (g := Gr (restored_edges ren w []) u).
  assert (L : forall x y, linked g x y <-> image ren (linked (wg_graph w)) x y) by (intros x y; apply (copy_linked ren w u x y Hp)).
  assert (Pth : forall x y, path (linked g) x y <-> path (image ren (linked (wg_graph w))) x y) by (intros x y; split; apply path_mono; intros a b; apply L).
  destruct (make_project g (ren (wg_start w)) (ren (wg_finish w)) (map ren (wg_nodes w))) as (w' & E & Eg & Es & Ef & P & T & Q).
  - intros x K. apply Pth in K. revert K. apply (image_acyclic ren _ (wg_nodes w) Hi (pj_closed w Hp) (pj_acyclic w Hp)).
  - intros x y K. apply L in K as (a & b & <- & <- & K). destruct (pj_closed w Hp a b K). split; apply in_map; assumption.
  - apply NoDup_map_inj; [exact Hi|apply (pj_nodup w Hp)].
  - split; [apply in_map, (pj_start w Hp)|]. intros x Hx. apply in_map_iff in Hx as (n & <- & Hn).
    destruct (proj2 (pj_start w Hp) n Hn) as [->|(p & K)]; [auto|]. right. exists (ren p). apply L. exists p, n. auto.
  - exists w'. unfold copy_graph. rewrite (prepare_copy_all ren w Hp). unfold rebuild_graph.
    rewrite (proj2 (mem_in _ _) (proj1 (pj_start w Hp))), (proj2 (mem_in _ _) (proj1 (pj_finish w Hp))). cbn [andb]. fold u g. rewrite E, Eg.
    split; [reflexivity|]. split.
    { apply Q. split; [apply in_map, (pj_finish w Hp)|]. intros x Hx. apply in_map_iff in Hx as (n & <- & Hn).
      destruct (proj2 (pj_finish w Hp) n Hn) as [->|(p & K)]; [auto|]. right. exists (ren p). apply L. exists n, p. auto. }
    split; [exact Es|]. split; [exact Ef|]. split; [exact P|]. split; [exact T|]. split; [|split].
    + intros n Hn. split; [apply copied_unit_spec; assumption|]. apply restored_edges_to; assumption.
    + cbn [g g_edges]. eapply Permutation_trans; [apply (restored_perm ren w [] Hp)|]. rewrite filter_all; [apply Permutation_refl|reflexivity].
    + intros a b Ha Hb. unfold precedes. rewrite Eg, Pth. apply image_pre; assumption.
Qed.
Print Assumptions copy_keeps_project.

(** The ids given by the simplification are one to one, and are the numbers from the offset on
    unless the offset is 0. *)
Definition simplified (uuid offset : nat) (w : work_graph) (n : nat) : nat := simplified_id uuid offset (pos (wg_nodes w) n).
Theorem simplified_ids (uuid offset : nat) (w : work_graph) : project w -> 0 < offset ->
  one_to_one (simplified uuid offset w) (wg_nodes w)
  /\ map (simplified uuid offset w) (wg_nodes w) = seq offset (length (wg_nodes w)).
Proof.
  intros Hp Ho. assert (E : forall n, simplified uuid offset w n = offset + pos (wg_nodes w) n).
  { intros n. unfold simplified, simplified_id. destruct (Nat.eqb_spec (offset + pos (wg_nodes w) n) 0); lia. }
  assert (Hn := pj_nodup w Hp). split.
  - intros a b Ha Hb. rewrite !E. intros K. assert (K' : pos (wg_nodes w) a = pos (wg_nodes w) b) by lia. clear K E Hp. revert K'.
    induction (wg_nodes w) as [|x l IH]; [destruct Ha|]. inversion Hn; subst. simpl.
    destruct (Nat.eqb_spec x a), (Nat.eqb_spec x b); intros K; try congruence; try discriminate.
    destruct Ha, Hb; try congruence. apply IH; auto.
  - rewrite (map_ext _ (fun n => offset + pos (wg_nodes w) n) E). clear E Hp Ho. revert offset. induction (wg_nodes w) as [|x l IH]; intros offset; [reflexivity|].
    inversion Hn; subst. cbn [map length seq]. f_equal; [cbn [pos]; rewrite Nat.eqb_refl; lia|]. rewrite <- (IH H2 (S offset)). apply map_ext_in. intros y Hy.
    cbn [pos]. destruct (Nat.eqb_spec x y); [congruence|lia].
Qed.
Print Assumptions simplified_ids.
(** Finding: with the default offset 0 the first node gets a random id instead of 0. *)
Theorem simplified_start_random (uuid : nat) (w : work_graph) n r : wg_nodes w = n :: r -> simplified uuid 0 w n = uuid.
Proof. intros E. unfold simplified, simplified_id. rewrite E. cbn [pos]. rewrite Nat.eqb_refl. reflexivity. Qed.
Print Assumptions simplified_start_random.

(** ** C83: inserting a graph between two works *)
Theorem graph_insertion_correct (renM renS : nat -> nat) (M S : work_graph) (ms mf : nat) :
  project M -> project S -> In ms (wg_nodes M) -> In mf (wg_nodes M) -> ~ precedes_or_is M mf ms ->
  inner S <> [] -> ~ linked (wg_graph S) (wg_start S) (wg_finish S) ->
  one_to_one renM (wg_nodes M) -> one_to_one renS (wg_nodes S) ->
  (forall a s, In a (wg_nodes M) -> In s (wg_nodes S) -> renM a <> renS s) ->
  exists w, graph_insertion renM renS M ms mf S = Some (Ends w) /\ project w
    /\ wg_start w = renM (wg_start M) /\ wg_finish w = renM (wg_finish M)
    (* exactly the works of the project and the inner works of the inserted graph *)
    /\ Permutation (wg_nodes w) (map renM (wg_nodes M) ++ map renS (inner S))
    /\ topological (linked (wg_graph w)) (wg_nodes w)
    /\ (forall n, In n (wg_nodes M) -> g_unit (wg_graph w) (renM n) = g_unit (wg_graph M) n)
    /\ (forall n, In n (inner S) -> g_unit (wg_graph w) (renS n) = g_unit (wg_graph S) n)
    (* every edge is kept with its lag and type, but those at the ends of the inserted graph *)
    /\ Permutation (g_edges (wg_graph w))
         (map (renamed renM) (g_edges (wg_graph M))
          ++ map (renamed renS) (filter (fun e => mem (e_from e) (inner S) && mem (e_to e) (inner S)) (g_edges (wg_graph S)))
          ++ map (fun e => Ed (renM ms) (renS (e_to e)) 0%Z FS) (edges_from (wg_graph S) (wg_start S))
          ++ map (fun e => Ed (renS (e_from e)) (renM mf) 0%Z FS) (edges_to (wg_graph S) (wg_finish S)))
    (* the inserted works come after the one work and before the other; otherwise nothing changes *)
    /\ (forall a b, In a (wg_nodes M) -> In b (wg_nodes M) ->
         (precedes w (renM a) (renM b) <-> precedes M a b \/ precedes_or_is M a ms /\ precedes_or_is M mf b))
    /\ (forall s t, In s (inner S) -> In t (inner S) -> (precedes w (renS s) (renS t) <-> precedes S s t))
    /\ (forall a s, In a (wg_nodes M) -> In s (inner S) -> (precedes w (renM a) (renS s) <-> precedes_or_is M a ms))
    /\ (forall s b, In s (inner S) -> In b (wg_nodes M) -> (precedes w (renS s) (renM b) <-> precedes_or_is M mf b)).
Proof.
  intros PM PS Hms Hmf Hback Hinner Hdirect HiM HiS0 Hdis0.
  assert (HiS : one_to_one renS (inner S)).
  { intros a b Ha Hb. apply inner_in in Ha as [Ha _]. apply inner_in in Hb as [Hb _]. apply HiS0; assumption. }
  assert (Hdis : forall a s, In a (wg_nodes M) -> In s (inner S) -> renM a <> renS s).
  { intros a s Ha Hs. apply inner_in in Hs as [Hs _]. auto. }
  destruct (make_project (Gr (ins_edges renM renS M S ms mf) (ins_unit renM renS M S)) (renM (wg_start M)) (renM (wg_finish M)) (ins_nodes renM renS M S)) as (w & E & Eg & Es & Ef & P & T & Q).
  - apply ins_acyclic; assumption.
  - apply ins_closed; assumption.
  - apply ins_nodup; assumption.
  - apply ins_single_start; assumption.
  - exists w. unfold precedes. rewrite Eg. split; [|split; [|split; [|split; [|split; [|split; [|split; [|split; [|split; [|split; [|split; [|split]]]]]]]]]]].
    + rewrite ins_runs by assumption. rewrite E. reflexivity.
    + apply Q. apply ins_single_finish; assumption.
    + exact Es.
    + exact Ef.
    + exact P.
    + exact T.
    + intros n Hn. apply copied_unit_spec; assumption.
    + intros n Hn. cbn [g_unit]. unfold ins_unit. rewrite copied_unit_other; [apply copied_unit_spec; [exact HiS0|apply inner_in in Hn; tauto]|].
      intros K. apply in_map_iff in K as (a & K & Ha). exact (Hdis a n Ha Hn K).
    + apply ins_edges_perm; assumption.
    + intros a b Ha Hb. apply ins_pathM; assumption.
    + intros s t Hs Ht. apply ins_pathSS; assumption.
    + intros a s Ha Hs. apply ins_pathMS; assumption.
    + intros s b Hs Hb. apply ins_pathSM; assumption.
Qed.
Print Assumptions graph_insertion_correct.
(** Finding: inserting backwards (or at one and the same work) never ends: the new graph has a
    cycle. *)
Theorem insertion_backwards_never_ends (renM renS : nat -> nat) (M S : work_graph) (ms mf : nat) :
  project M -> project S -> In ms (wg_nodes M) -> In mf (wg_nodes M) -> precedes_or_is M mf ms ->
  inner S <> [] -> ~ linked (wg_graph S) (wg_start S) (wg_finish S) ->
  exists g, graph_insertion renM renS M ms mf S = Some (make_work_graph g (renM (wg_start M)) (renM (wg_finish M)))
    /\ forall rounds, traverse rounds true g [] [renM (wg_start M)] = Running.
Proof.
  intros PM PS Hms Hmf Hb Hne Hd. exists (Gr (ins_edges renM renS M S ms mf) (ins_unit renM renS M S)).
  split; [apply ins_runs; assumption|].
  assert (Sub : forall x y, spliced (image renM (linked (wg_graph M))) (image renS (inner_linked S))
     (fun x y => x = renM ms /\ exists t, linked (wg_graph S) (wg_start S) t /\ y = renS t)
     (fun x y => y = renM mf /\ exists t, linked (wg_graph S) t (wg_finish S) /\ x = renS t) x y ->
     linked (Gr (ins_edges renM renS M S ms mf) (ins_unit renM renS M S)) x y).
  { intros x y K. apply ins_linked; assumption. }
  assert (HM : forall a b, path0 (linked (wg_graph M)) a b -> path0 (linked (Gr (ins_edges renM renS M S ms mf) (ins_unit renM renS M S))) (renM a) (renM b)).
  { intros a b K. apply path0_iff in K as [->|K]; [apply rt_refl|]. apply path_path0. eapply path_mono; [|apply (image_path renM _ a b K)]. intros x y L. apply Sub. left. exact L. }
  apply (cycle_never_ends _ _ (renM ms)).
  - apply HM. apply from_start; assumption.
  - destruct (inner S) as [|s0 r] eqn:Ei; [congruence|]. assert (Hs0 : In s0 (inner S)) by (rewrite Ei; left; reflexivity).
    destruct (inner_opening S s0 PS Hs0) as (o & Lo & Po). destruct (inner_closing S s0 PS Hs0) as (c & Lc & Pc).
    assert (Poc : path0 (inner_linked S) o c) by (eapply rt_trans; eauto).
    apply path_path0_trans with (renM mf); [|apply HM; apply path0_poi; exact Hb].
    apply path0_step with (renS c); [|apply Sub; right; right; right; split; [reflexivity|]; exists c; auto].
    apply path0_iff. right. apply path_path0_trans with (renS o); [apply t_step; apply Sub; right; right; left; split; [reflexivity|]; exists o; auto|].
    apply path0_iff in Poc as [->|Poc]; [apply rt_refl|]. apply path_path0. eapply path_mono; [|apply (image_path renS _ o c Poc)]. intros x y L. apply Sub. right. left. exact L.
Qed.
Print Assumptions insertion_backwards_never_ends.
(** Finding: a graph with an edge from its start to its finish cannot be inserted (KeyError). *)
Theorem insertion_direct_edge_raises (renM renS : nat -> nat) (M S : work_graph) (ms mf : nat) :
  linked (wg_graph S) (wg_start S) (wg_finish S) -> graph_insertion renM renS M ms mf S = None.
Proof.
  intros (e & He & E1 & E2). unfold graph_insertion. destruct (prepare_copy renM M []) as [[km em]|]; [|reflexivity].
  destruct (prepare_copy renS S [wg_start S; wg_finish S]) as [[ks es]|] eqn:Ec; [|reflexivity].
  assert (K : forallb (fun e => mem (e_to e) ks) (edges_from (wg_graph S) (wg_start S)) = false).
  { destruct (forallb _ _) eqn:F; [|reflexivity]. exfalso. rewrite forallb_forall in F. specialize (F e). rewrite mem_in in F.
    assert (Q : In (e_to e) ks) by (apply F; apply edges_from_in; auto). unfold prepare_copy in Ec.
    assert (Sub : incl ks (filter (fun n => negb (mem n [wg_start S; wg_finish S])) (wg_nodes S))).
    { destruct (filter _ (wg_nodes S)) as [|z l]; [discriminate|]. injection Ec as <- <-. apply incl_refl. }
    apply Sub, filter_In in Q as [_ Q]. rewrite negb_true_iff, mem_nin in Q. apply Q. right. left. auto. }
  rewrite K, andb_false_r. reflexivity.
Qed.
Print Assumptions insertion_direct_edge_raises.

(** ** C84: inserting one work *)
Theorem insert_work_correct (ren : nat -> nat) (M : work_graph) (new : nat) (unit : work_unit) (parents children : links) :
  project M -> one_to_one ren (wg_nodes M) -> ~ In new (map ren (wg_nodes M)) ->
  link_nodes parents <> [] -> link_nodes children <> [] ->
  (forall p, In p (link_nodes parents) -> In p (wg_nodes M)) -> (forall c, In c (link_nodes children) -> In c (wg_nodes M)) ->
  (forall p c, In p (link_nodes parents) -> In c (link_nodes children) -> ~ precedes_or_is M c p) ->
  exists w, insert_work ren M new unit parents children = Some (Ends w) /\ project w
    /\ wg_start w = ren (wg_start M) /\ wg_finish w = ren (wg_finish M)
    /\ Permutation (wg_nodes w) (map ren (wg_nodes M) ++ [new]) /\ topological (linked (wg_graph w)) (wg_nodes w)
    /\ g_unit (wg_graph w) new = unit /\ (forall n, In n (wg_nodes M) -> g_unit (wg_graph w) (ren n) = g_unit (wg_graph M) n)
    (* the edges of the project are kept; the new ones are the given ones (plain nodes: lag -1) *)
    /\ Permutation (g_edges (wg_graph w))
         (map (renamed ren) (g_edges (wg_graph M))
          ++ match parents with Nodes ns => map (fun p => Ed (ren p) new (-1)%Z FS) ns
             | Tuples ts => map (fun t => Ed (ren (fst (fst t))) new (snd (fst t)) (snd t)) ts end
          ++ match children with Nodes ns => map (fun c => Ed new (ren c) (-1)%Z FS) ns
             | Tuples ts => map (fun t => Ed new (ren (fst (fst t))) (snd (fst t)) (snd t)) ts end)
    /\ (forall a b, In a (wg_nodes M) -> In b (wg_nodes M) ->
         (precedes w (ren a) (ren b) <-> precedes M a b
          \/ exists p c, In p (link_nodes parents) /\ In c (link_nodes children) /\ precedes_or_is M a p /\ precedes_or_is M c b))
    /\ (forall a, In a (wg_nodes M) -> (precedes w (ren a) new <-> exists p, In p (link_nodes parents) /\ precedes_or_is M a p))
    /\ (forall b, In b (wg_nodes M) -> (precedes w new (ren b) <-> exists c, In c (link_nodes children) /\ precedes_or_is M c b)).
Proof.
  intros PM Hi Hfr Hpne Hcne Hp Hc Hb.
  destruct (reduce_links_some parents Hpne) as (ps & Eps). destruct (reduce_links_some children Hcne) as (cs & Ecs).
  assert (Nps := reduce_links_nodes _ _ Eps). assert (Ncs := reduce_links_nodes _ _ Ecs). rewrite <- Nps in *. rewrite <- Ncs in *.
  destruct (iw_grow ren M new unit ps cs PM Hi Hp Hc) as (G1 & G2 & G3 & G4 & G5 & G6 & G7 & G8).
  - intros ->. apply Hpne. reflexivity.
  - intros ->. apply Hcne. reflexivity.
  - exact Hb.
  - exact Hfr.
  - destruct (make_project (Gr (iw_edges ren M new ps cs) (iw_unit ren M new unit)) (ren (wg_start M)) (ren (wg_finish M)) _ G1 G2 G3 G4) as (w & E & Eg & Es & Ef & P & T & Q).
    exists w. unfold precedes. rewrite Eg. split; [|split; [|split; [|split; [|split; [|split; [|split; [|split; [|split; [|split; [|split]]]]]]]]]].
    + unfold insert_work. rewrite Eps, Ecs, (prepare_copy_all ren M PM).
      rewrite (proj2 (forallb_forall _ (ps ++ cs))).
      2:{ intros x Hx. apply mem_in. apply in_app_or in Hx as [Hx|Hx]; [apply Hp|apply Hc]; apply (in_map (fun t => fst (fst t))); exact Hx. }
      unfold rebuild_graph. rewrite (proj2 (mem_in _ _) (proj1 (pj_start M PM))), (proj2 (mem_in _ _) (proj1 (pj_finish M PM))). cbn [andb].
      change (Some (make_work_graph (Gr (iw_edges ren M new ps cs) (iw_unit ren M new unit)) (ren (wg_start M)) (ren (wg_finish M))) = Some (Ends w)).
      rewrite E. reflexivity.
    + apply Q. exact G5.
    + exact Es.
    + exact Ef.
    + exact P.
    + exact T.
    + cbn [g_unit]. unfold iw_unit. rewrite Nat.eqb_refl. reflexivity.
    + intros n Hn. cbn [g_unit]. unfold iw_unit. destruct (Nat.eqb_spec (ren n) new) as [K|_]; [exfalso; apply Hfr; rewrite <- K; apply in_map; exact Hn|].
      apply copied_unit_spec; assumption.
    + cbn [g_edges]. unfold iw_edges. apply Permutation_app.
      * eapply Permutation_trans; [apply (restored_perm ren M [] PM)|]. rewrite filter_all; [apply Permutation_refl|reflexivity].
      * assert (K1 : map (fun x : nat * Z * edge_type => Ed (ren (fst (fst x))) new (snd (fst x)) (snd x)) ps
            = match parents with Nodes ns => map (fun p => Ed (ren p) new (-1)%Z FS) ns | Tuples ts => map (fun t => Ed (ren (fst (fst t))) new (snd (fst t)) (snd t)) ts end).
        { clear - Eps. destruct parents as [[|n ns]|[|t ts]]; try discriminate; injection Eps as <-; [|reflexivity]. cbn. f_equal. rewrite map_map. reflexivity. }
        assert (K2 : map (fun x : nat * Z * edge_type => Ed new (ren (fst (fst x))) (snd (fst x)) (snd x)) cs
            = match children with Nodes ns => map (fun p => Ed new (ren p) (-1)%Z FS) ns | Tuples ts => map (fun t => Ed new (ren (fst (fst t))) (snd (fst t)) (snd t)) ts end).
        { clear - Ecs. destruct children as [[|n ns]|[|t ts]]; try discriminate; injection Ecs as <-; [|reflexivity]. cbn. f_equal. rewrite map_map. reflexivity. }
        rewrite K1, K2. apply Permutation_refl.
    + exact G6.
    + exact G7.
    + exact G8.
Qed.
Print Assumptions insert_work_correct.

(** ** C85: an obstruction puts a graph after a random work *)
Theorem obstruction_correct (M I : work_graph) (at_node : nat) (pick : list nat -> nat) :
  project M -> project I -> In at_node (wg_nodes M) -> (forall x, In x (wg_nodes M) -> ~ In x (wg_nodes I)) ->
  (children (wg_graph M) at_node <> [] -> In (pick (children (wg_graph M) at_node)) (children (wg_graph M) at_node)) ->
  exists w, obstruct M I at_node pick = Ends w /\ wg_start w = wg_start M /\ wg_finish w = wg_finish M
    /\ Permutation (wg_nodes w) (wg_nodes M ++ wg_nodes I) /\ topological (linked (wg_graph w)) (wg_nodes w)
    /\ (forall n, In n (wg_nodes M) -> g_unit (wg_graph w) n = g_unit (wg_graph M) n)
    /\ (forall n, In n (wg_nodes I) -> g_unit (wg_graph w) n = g_unit (wg_graph I) n)
    /\ incl (g_edges (wg_graph M) ++ g_edges (wg_graph I)) (g_edges (wg_graph w))
    /\ (forall a b, In a (wg_nodes M) -> In b (wg_nodes M) -> (precedes w a b <-> precedes M a b))
    /\ (forall s t, In s (wg_nodes I) -> In t (wg_nodes I) -> (precedes w s t <-> precedes I s t))
    /\ (forall a s, In a (wg_nodes M) -> In s (wg_nodes I) -> (precedes w a s <-> precedes_or_is M a at_node))
    (* only the start of the inserted graph precedes works of the project *)
    /\ (forall s b, In s (wg_nodes I) -> In b (wg_nodes M) -> (precedes w s b <->
          s = wg_start I /\ children (wg_graph M) at_node <> [] /\ precedes_or_is M (pick (children (wg_graph M) at_node)) b)).
Proof.
  intros PM PI Hat Hd Hpk. destruct (ob_grow M I at_node pick PM PI Hat Hd Hpk) as (G1 & G2 & G3 & G4 & G5 & G6 & G7 & G8).
  destruct (make_project (ob_graph M I at_node pick) (wg_start M) (wg_finish M) _ G1 G2 G3 G4) as (w & E & Eg & Es & Ef & P & T & _).
  exists w. unfold precedes. rewrite Eg. split; [exact E|]. split; [exact Es|]. split; [exact Ef|]. split; [exact P|]. split; [exact T|].
  split; [|split; [|split; [|split; [exact G5|split; [exact G7|split; [exact G6|exact G8]]]]]].
  - intros n Hn. cbn. apply Hd, mem_nin in Hn. rewrite Hn. reflexivity.
  - intros n Hn. cbn. apply mem_in in Hn. rewrite Hn. reflexivity.
  - intros e He. cbn. apply in_app_or in He as [He|He]; apply in_or_app; [auto|right; apply in_or_app; auto].
Qed.
Print Assumptions obstruction_correct.
(** Finding: the inserted works are not before the finish of the project, so that the result is
    not a project graph: it has a second end. *)
Theorem obstruction_not_before_finish (M I : work_graph) (at_node : nat) (pick : list nat -> nat) :
  project M -> project I -> In at_node (wg_nodes M) -> (forall x, In x (wg_nodes M) -> ~ In x (wg_nodes I)) ->
  (children (wg_graph M) at_node <> [] -> In (pick (children (wg_graph M) at_node)) (children (wg_graph M) at_node)) ->
  wg_start I <> wg_finish I ->
  exists w, obstruct M I at_node pick = Ends w /\ ~ project w
    /\ (forall s, In s (wg_nodes I) -> s <> wg_start I -> ~ precedes w s (wg_finish w))
    /\ (forall x, ~ linked (wg_graph w) (wg_finish I) x) /\ In (wg_finish I) (wg_nodes w) /\ wg_finish I <> wg_finish w.
Proof.
  intros PM PI Hat Hd Hpk Hne. destruct (obstruction_correct M I at_node pick PM PI Hat Hd Hpk) as (w & E & Es & Ef & P & _ & _ & _ & _ & _ & G7 & _ & G8).
  assert (HfI := proj1 (pj_finish I PI)). assert (HfM := proj1 (pj_finish M PM)).
  assert (Hin : In (wg_finish I) (wg_nodes w)) by (apply (Permutation_in _ (Permutation_sym P)); apply in_or_app; auto).
  assert (Hdf : wg_finish I <> wg_finish w) by (rewrite Ef; intros K; apply (Hd _ HfM); rewrite <- K; exact HfI).
  destruct (ob_grow M I at_node pick PM PI Hat Hd Hpk) as (_ & G2 & _). unfold obstruct in E.
  assert (Eg : wg_graph w = ob_graph M I at_node pick).
  { unfold make_work_graph in E. destruct (traverse_children _ _ _); [|discriminate]. injection E as <-. reflexivity. }
  assert (Lst : forall x, ~ linked (wg_graph w) (wg_finish I) x).
  { intros x L. assert (L' := L). rewrite Eg in L'. apply G2 in L' as [_ Hx]. apply in_app_or in Hx as [Hx|Hx].
    - assert (K : precedes w (wg_finish I) x) by (apply t_step; exact L). apply (G8 _ x HfI Hx) in K as (K & _). congruence.
    - assert (K : precedes w (wg_finish I) x) by (apply t_step; exact L). apply (G7 _ x HfI Hx) in K. apply path_first in K as (c & K & _).
      exact (finish_last I c PI K). }
  exists w. split; [exact E|]. split; [|split; [|split; [exact Lst|split; [exact Hin|exact Hdf]]]].
  - intros Pw. destruct (proj2 (pj_finish w Pw) _ Hin) as [K|(c & K)]; [congruence|exact (Lst c K)].
  - intros s Hs Hns K. rewrite Ef in K. apply (G8 s _ Hs HfM) in K as (K & _). congruence.
Qed.
Print Assumptions obstruction_not_before_finish.

(** ** C86: generated sub-works *)
Theorem restruct_correct (M : work_graph) (subs : nat -> list (nat * work_unit)) :
  project M -> u_service (g_unit (wg_graph M) (wg_finish M)) = true ->
  NoDup (map fst (sub_units M subs)) -> (forall s, In s (map fst (sub_units M subs)) -> ~ In s (wg_nodes M)) ->
  exists w, restruct M subs = Some (Ends w) /\ project w /\ wg_start w = wg_start M /\ wg_finish w = wg_finish M
    /\ Permutation (wg_nodes w) (wg_nodes M ++ map fst (sub_units M subs)) /\ topological (linked (wg_graph w)) (wg_nodes w)
    /\ (forall n, In n (wg_nodes M) -> g_unit (wg_graph w) n = g_unit (wg_graph M) n)
    /\ (forall s u, In (s, u) (sub_units M subs) -> g_unit (wg_graph w) s = u)
    /\ (forall a b, In a (wg_nodes M) -> In b (wg_nodes M) -> (precedes w a b <-> precedes M a b))
    (* a sub-work comes after its work and before the finish only *)
    /\ (forall a n s u, In a (wg_nodes M) -> In n (wg_nodes M) -> u_service (g_unit (wg_graph M) n) = false -> In (s, u) (subs n) ->
         (precedes w a s <-> precedes_or_is M a n) /\ (forall x, precedes w s x <-> x = wg_finish M)).
Proof.
  intros PM Hf Hn Hd. destruct (rs_grow M subs PM Hf Hn Hd) as (G1 & G2 & G3 & G4 & G5 & G6 & G7 & G8).
  destruct (make_project (rs_graph M subs) (wg_start M) (wg_finish M) _ G1 G2 G3 G4) as (w & E & Eg & Es & Ef & P & T & Q).
  exists w. unfold precedes. rewrite Eg. split; [|split; [exact (Q G5)|split; [exact Es|split; [exact Ef|split; [exact P|split; [exact T|split; [|split; [|split]]]]]]]].
  - unfold restruct. rewrite (prepare_copy_all _ M PM). unfold rebuild_graph.
    rewrite (proj2 (mem_in _ _) (proj1 (pj_start M PM))), (proj2 (mem_in _ _) (proj1 (pj_finish M PM))). cbn [andb]. fold (rs_unit M subs) (rs_graph M subs). rewrite E. reflexivity.
  - intros n Hn'. cbn. unfold rs_unit. destruct (find _ _) as [s|] eqn:F.
    + apply find_some in F as [F1 F2]. apply Nat.eqb_eq in F2. exfalso. apply (Hd n); [rewrite <- F2; apply in_map; exact F1|exact Hn'].
    + apply (copied_unit_spec (fun n => n) M _ n); [intros a b _ _ K; exact K|exact Hn'].
  - intros s u Hs. cbn. unfold rs_unit. clear - Hn Hs. induction (sub_units M subs) as [|[s0 u0] l IH]; [destruct Hs|]. cbn [map fst] in Hn. inversion Hn; subst.
    cbn [find fst]. destruct Hs as [[= -> ->]|Hs]; [rewrite Nat.eqb_refl; reflexivity|]. destruct (Nat.eqb_spec s0 s) as [->|_]; [exfalso; apply H1; apply (in_map fst _ (s, u)); exact Hs|].
    apply IH; assumption.
  - exact G6.
  - intros a n s u Ha Hnn Hsv Hs. assert (K : sub_of M subs n s) by (split; [exact Hnn|]; split; [exact Hsv|apply (in_map fst _ (s, u)); exact Hs]). split; [apply G7; assumption|intros x; eapply G8; exact K].
Qed.
Print Assumptions restruct_correct.
(** Finding: if the finish is not a service work and gets a sub-work, restruct never ends. *)
Theorem restruct_finish_never_ends (M : work_graph) (subs : nat -> list (nat * work_unit)) s u :
  project M -> u_service (g_unit (wg_graph M) (wg_finish M)) = false -> In (s, u) (subs (wg_finish M)) ->
  exists g, restruct M subs = Some (make_work_graph g (wg_start M) (wg_finish M))
    /\ forall rounds, traverse rounds true g [] [wg_start M] = Running.
Proof.
  intros PM Hf Hs. exists (rs_graph M subs). split.
  - unfold restruct. rewrite (prepare_copy_all _ M PM). unfold rebuild_graph.
    rewrite (proj2 (mem_in _ _) (proj1 (pj_start M PM))), (proj2 (mem_in _ _) (proj1 (pj_finish M PM))). reflexivity.
  - assert (K : sub_of M subs (wg_finish M) s) by (split; [apply (pj_finish M PM)|]; split; [exact Hf|apply (in_map fst _ (s, u)); exact Hs]).
    apply (cycle_never_ends _ _ (wg_finish M)).
    + eapply path0_mono; [|apply (from_start M _ PM (proj1 (pj_finish M PM)))]. intros x y L. apply rs_linked; [exact PM|]. left. apply image_id. exact L.
    + eapply t_trans; apply t_step; apply rs_linked; try exact PM; [right; right; left; exact K|]. right; right; right. split; [reflexivity|]. eapply sub_of_in. exact K.
Qed.
Print Assumptions restruct_finish_never_ends.

(** ** C87: deleting a work *)
Theorem deletion_correct (ren : nat -> nat) (w : work_graph) (r : nat) :
  project w -> one_to_one ren (wg_nodes w) -> In r (wg_nodes w) -> r <> wg_start w -> r <> wg_finish w ->
  (* the edges of the work are dependencies, and it is not the head of an inseparable chain *)
  (forall e, In e (g_edges (wg_graph w)) -> e_from e = r \/ e_to e = r -> is_dependency (e_type e) = true) ->
  (forall e, In e (g_edges (wg_graph w)) -> e_from e = r -> e_type e <> IFS)
    \/ (exists e, In e (g_edges (wg_graph w)) /\ e_to e = r /\ e_type e = IFS) ->
  exists bound s w', (forall rounds, bound <= rounds -> delete_node ren w r rounds = Some (Ends (wg_nodes w'), s))
    (* the lists kept by the remaining nodes are those of a project *)
    /\ (forall n, In n (wg_nodes w') -> ts_to s n = edges_to (wg_graph w') n /\ ts_from s n = edges_from (wg_graph w') n)
    /\ project w' /\ wg_start w' = ren (wg_start w) /\ wg_finish w' = ren (wg_finish w)
    /\ Permutation (wg_nodes w') (map ren (filter (fun n => negb (Nat.eqb n r)) (wg_nodes w)))
    /\ topological (linked (wg_graph w')) (wg_nodes w')
    (* edges of other works are kept; every predecessor of the deleted work is linked to every successor *)
    /\ (forall e, In e (g_edges (wg_graph w')) <->
         (exists e0, In e0 (g_edges (wg_graph w)) /\ e_from e0 <> r /\ e_to e0 <> r /\ e = renamed ren e0)
         \/ (exists p c, linked (wg_graph w) p r /\ linked (wg_graph w) r c /\ e = Ed (ren p) (ren c) 0%Z FS))
    (* precedence between the other works is unchanged *)
    /\ (forall a b, In a (wg_nodes w) -> In b (wg_nodes w) -> a <> r -> b <> r -> (precedes w' (ren a) (ren b) <-> precedes w a b)).
Proof.
  intros Hp Hi Hr Hrs Hrf Hdep Hhead. destruct (del_correct ren w r Hp Hi Hr Hrs Hrf Hdep Hhead) as (l & E & P & Q & T & A).
  exists (traverse_rounds (del_graph ren w r)), (node_deletion (ren r) (sides (restored_edges ren w []))), (WG (del_graph ren w r) (ren (wg_start w)) (ren (wg_finish w)) l).
  cbn [wg_nodes wg_graph wg_start wg_finish]. split; [exact E|]. split; [exact A|]. split; [exact Q|]. split; [reflexivity|]. split; [reflexivity|]. split; [exact P|]. split; [exact T|].
  split; [apply del_edge; assumption|]. intros a b Ha Hb Na Nb. unfold precedes at 1. cbn [wg_graph]. apply del_precedes; try assumption; apply others_in; auto.
Qed.
Print Assumptions deletion_correct.

(** ** Concrete cases *)
Definition gx_unit (n : nat) : work_unit := WU (Nat.eqb n 0 || Nat.eqb n 4) [] (Z.of_nat n).
(** 0 is the start and 4 the finish; 1 before 2 (lag 3), 3 beside them *)
Definition gx_master : work_graph := WG (Gr [Ed 0 1 0 FS; Ed 1 2 3 FS; Ed 0 3 0 FS; Ed 2 4 0 FS; Ed 3 4 0 FS]%Z gx_unit) 0 4 [0; 1; 3; 2; 4].
(** 20 is the start and 23 the finish *)
Definition gx_slave : work_graph := WG (Gr [Ed 20 21 0 FS; Ed 21 22 5 FFS; Ed 22 23 0 FS]%Z gx_unit) 20 23 [20; 21; 22; 23].
Lemma gx_master_project : project gx_master.
Proof. apply project_check_sound. reflexivity. Qed.
Lemma gx_slave_project : project gx_slave.
Proof. apply project_check_sound. reflexivity. Qed.
Definition result_nodes (o : option (run work_graph)) : list nat := match o with Some (Ends w) => wg_nodes w | _ => [] end.
Definition result_edges (o : option (run work_graph)) (n : nat) : list edge := match o with Some (Ends w) => edges_to (wg_graph w) n | _ => [] end.
Lemma gx_not_back : ~ precedes_or_is gx_master 3 1.
Proof.
  intros [K|K]; [discriminate|]. apply path_first in K as (c & (e & He & E1 & E2) & K). cbn in He.
  repeat (destruct He as [<-|He]; [cbn in E1, E2; try discriminate E1; subst c; try (apply path0_path in K as [K|K]; [discriminate|apply path_first in K as (c & K & _); exact (finish_last gx_master c gx_master_project K)])|]). destruct He.
Qed.
Example insertion_example :
  project gx_master /\ project gx_slave /\ ~ precedes_or_is gx_master 3 1 /\ inner gx_slave = [21; 22]
  /\ one_to_one (fun n => 100 + n) (wg_nodes gx_master)
  /\ result_nodes (graph_insertion (fun n => 100 + n) (fun n => 200 + n) gx_master 1 3 gx_slave) = [100; 101; 102; 221; 222; 103; 104]
  /\ result_edges (graph_insertion (fun n => 100 + n) (fun n => 200 + n) gx_master 1 3 gx_slave) 103 = [Ed 100 103 0 FS; Ed 222 103 0 FS]%Z.
Proof.
  split; [exact gx_master_project|]. split; [exact gx_slave_project|]. split; [exact gx_not_back|]. split; [reflexivity|]. split; [intros a b _ _; lia|].
  split; vm_compute; reflexivity.
Qed.
Example copy_example : result_nodes (copy_graph (simplified 99 0 gx_master) gx_master) = [99; 1; 2; 3; 4]
  /\ result_nodes (copy_graph (simplified 99 7 gx_master) gx_master) = [7; 8; 9; 10; 11]
  /\ result_edges (copy_graph (simplified 99 7 gx_master) gx_master) 10 = [Ed 8 10 3 FS]%Z.
Proof. repeat split; vm_compute; reflexivity. Qed.
Example insert_work_example :
  result_nodes (insert_work (fun n => n) gx_master 50 no_unit (Nodes [1]) (Nodes [3])) = [0; 1; 2; 50; 3; 4]
  /\ result_edges (insert_work (fun n => n) gx_master 50 no_unit (Nodes [1]) (Nodes [3])) 3 = [Ed 0 3 0 FS; Ed 50 3 (-1) FS]%Z
  /\ result_edges (insert_work (fun n => n) gx_master 50 no_unit (Tuples [(1, 2%Z, FFS)]) (Nodes [3])) 50 = [Ed 1 50 2 FFS]%Z
  /\ insert_work (fun n => n) gx_master 50 no_unit (Nodes []) (Nodes [3]) = None.
Proof. repeat split; vm_compute; reflexivity. Qed.
Example obstruction_example :
  match obstruct gx_master gx_slave 1 (hd 0) with
  | Ends w => wg_nodes w = [0; 1; 3; 20; 2; 21; 4; 22; 23] /\ wg_finish w = 4
  | Running => False
  end.
Proof. vm_compute. auto. Qed.
Definition gx_subs (n : nat) : list (nat * work_unit) := match n with 1 => [(30, no_unit); (31, no_unit)] | 3 => [(32, no_unit)] | _ => [] end.
Example restruct_example : sub_units gx_master gx_subs = [(30, no_unit); (31, no_unit); (32, no_unit)]
  /\ u_service (g_unit (wg_graph gx_master) (wg_finish gx_master)) = true
  /\ result_nodes (restruct gx_master gx_subs) = [0; 1; 3; 2; 30; 31; 32; 4].
Proof. repeat split; vm_compute; reflexivity. Qed.
Example deletion_example : match delete_node (fun n => 100 + n) gx_master 1 100 with
  | Some (Ends l, s) => l = [100; 103; 102; 104] /\ ts_to s 102 = [Ed 100 102 0 FS]%Z /\ ts_from s 100 = [Ed 100 103 0 FS; Ed 100 102 0 FS]%Z
  | _ => False end.
Proof. vm_compute. auto. Qed.

(** Findings about deletion. (1) Deleting a chain by its head leaves the last work of the chain,
    although "all of those nodes" are to be deleted; from any other work of the chain only that
    work is deleted. *)
Definition gx_chain : work_graph := WG (Gr [Ed 0 1 0 FS; Ed 1 2 0 IFS; Ed 2 3 0 IFS; Ed 3 4 0 FS]%Z gx_unit) 0 4 [0; 1; 2; 3; 4].
Theorem deletion_leaves_last_of_chain : project gx_chain /\ chain_of (wg_graph gx_chain) 1 = Some [1; 2; 3]
  /\ option_map fst (delete_node (fun n => n) gx_chain 1 100) = Some (Ends [0; 3; 4])
  /\ option_map fst (delete_node (fun n => n) gx_chain 2 100) = Some (Ends [0; 1; 3; 4]).
Proof. split; [apply project_check_sound; reflexivity|]. repeat split; vm_compute; reflexivity. Qed.
Print Assumptions deletion_leaves_last_of_chain.
(** (2) A work with an edge that is not a dependency (start-start or finish-finish) stays in
    the graph when it is deleted. *)
Definition gx_ss : work_graph := WG (Gr [Ed 0 1 0 FS; Ed 0 2 0 FS; Ed 1 2 0 SS; Ed 1 4 0 FS; Ed 2 4 0 FS]%Z gx_unit) 0 4 [0; 1; 2; 4].
Theorem deletion_keeps_ss_work : project gx_ss /\ option_map fst (delete_node (fun n => n) gx_ss 2 100) = Some (Ends [0; 1; 4; 2]).
Proof. split; [apply project_check_sound; reflexivity|]. vm_compute. reflexivity. Qed.
Print Assumptions deletion_keeps_ss_work.
(** (3) The start and the finish cannot be deleted (KeyError). *)
Theorem deletion_of_ends_raises : delete_node (fun n => n) gx_master 0 100 = None /\ delete_node (fun n => n) gx_master 4 100 = None.
Proof. split; vm_compute; reflexivity. Qed.
Print Assumptions deletion_of_ends_raises.
