(** C21 and C38: traversal, construction and serialization of work graphs. *)
From Coq Require Import ZArith List Bool Lia Arith Relations Sorted Permutation.
From Verif Require Import TimeModel MomentumModel GraphModel ScheduleSpec ScheduleInv Digraph StableSort TopoModel TopoProofs
  TopoTheorems TraverseModel TraverseProofs.
Import ListNotations.

(** ** C21: traversal *)

(** In an acyclic graph in which the start node is the only node without predecessors, the
    topological traversal ends and yields every node once, each after all the nodes it has
    an edge from. *)
Theorem topological_traversal_correct (g : graph) (nodes : list nat) (start : nat) :
  acyclic (linked g) -> (forall x y, linked g x y -> In x nodes /\ In y nodes) -> NoDup nodes -> In start nodes ->
  (forall x, In x nodes -> x = start \/ exists p, linked g p x) ->
  exists l, traverse_children true g start = Ends l /\ Permutation l nodes /\ topological (linked g) l.
Proof.
  intros Hac Hcl Hnd Hst Hs. destruct (traverse_start g nodes start Hac Hcl Hst Hs) as (l & E & H1 & H2 & H3).
  exists l. split; [exact E|]. split; [apply NoDup_Permutation; assumption|exact H3].
Qed.
Print Assumptions topological_traversal_correct.

(** The plain traversal ends in every graph, with cycles or without, and yields exactly the
    nodes that can be reached, each once. *)
Theorem plain_traversal_correct (g : graph) (start : nat) :
  exists l, traverse_children false g start = Ends l /\ NoDup l /\ (forall x, In x l <-> path0 (linked g) start x).
Proof.
  unfold traverse_children. apply traverse_plain.
  - assert (H := pending_le g []). unfold traverse_rounds. cbn [length]. nia.
  - constructor.
  - intros x [<-|[]]. apply rt_refl.
  - intros x y [].
  - left. reflexivity.
Qed.
Print Assumptions plain_traversal_correct.

(** If some node has a predecessor that cannot be reached from the start node, the
    topological traversal never ends. *)
Theorem topological_traversal_endless : exists g start, acyclic (linked g) /\
  forall rounds, traverse rounds true g [] [start] = Running.
Proof.
  set (g := Gr [Ed 0 1 0 FS; Ed 2 1 0 FS]%nat%Z (fun _ => px_unit)). exists g, 0%nat. split.
  - apply (topological_acyclic _ [0; 2; 1]%nat); [repeat constructor; simpl; intuition discriminate| |].
    + intros x y (e & He & <- & <-) _ _. simpl in He. destruct He as [<-|[<-|[]]]; simpl.
      * exists [], [2%nat], []. reflexivity.
      * exists [0%nat], [], []. reflexivity.
    + intros x y (e & He & <- & <-). simpl in He. destruct He as [<-|[<-|[]]]; simpl; auto.
  - intros [|rounds]; [reflexivity|].
    change (traverse (S rounds) true g [] [0%nat]) with (traverse rounds true g [0%nat] [1%nat]).
    induction rounds as [|rounds IH]; [reflexivity|exact IH].
Qed.
Print Assumptions topological_traversal_endless.

Lemma px_linked x y : linked px_graph x y -> In (x, y) [(0, 1); (1, 2); (0, 3); (1, 3)]%nat.
Proof.
  intros (e & He & <- & <-). simpl in He. repeat (destruct He as [<-|He]; [simpl; tauto|]). destruct He.
Qed.
Example traversal_example :
  acyclic (linked px_graph) /\ (forall x y, linked px_graph x y -> In x [0; 1; 2; 3]%nat /\ In y [0; 1; 2; 3]%nat)
  /\ (forall x, In x [0; 1; 2; 3]%nat -> x = 0%nat \/ exists p, linked px_graph p x)
  /\ traverse_children true px_graph 0 = Ends [0; 1; 3; 2]%nat.
Proof.
  split; [|split; [|split; [|vm_compute; reflexivity]]].
  - apply (topological_acyclic _ [0; 1; 2; 3]%nat); [repeat constructor; simpl; intuition discriminate| |].
    + intros x y Hxy _ _. apply px_linked in Hxy. simpl in Hxy.
      apply comes_before_pos; [repeat constructor; simpl; intuition discriminate|].
      destruct Hxy as [[= <- <-]|[[= <- <-]|[[= <- <-]|[[= <- <-]|[]]]]]; simpl; intuition lia.
    + intros x y Hxy. apply px_linked in Hxy. simpl in *. intuition congruence.
  - intros x y Hxy. apply px_linked in Hxy. simpl in *. intuition congruence.
  - intros x [<-|[<-|[<-|[<-|[]]]]]; [auto| | |]; right.
    + exists 0%nat, (Ed 0 1 0 FS)%nat%Z. simpl. auto.
    + exists 1%nat, (Ed 1 2 0 FFS)%nat%Z. simpl. auto.
    + exists 1%nat, (Ed 1 3 0 IFS)%nat%Z. simpl. auto 10.
Qed.

(** ** C21: from_nodes *)
Lemma first_is_source g l start : NoDup l -> topological (linked g) l -> In start l ->
  (forall x, In x l -> x = start \/ exists p, In p l /\ linked g p x) -> exists r, l = start :: r.
Proof.
  intros Hnd Ht Hs Hsrc. destruct l as [|x l]; [destruct Hs|]. destruct (Hsrc x (or_introl eq_refl)) as [->|(p & Hp & L)]; [eauto|].
  exfalso. assert (C := Ht p x L Hp (or_introl eq_refl)). apply comes_before_pos in C; [|exact Hnd].
  simpl in C. rewrite Nat.eqb_refl in C. lia.
Qed.
Lemma last_is_sink g l finish : NoDup l -> topological (linked g) l -> In finish l ->
  (forall x, In x l -> x = finish \/ exists c, In c l /\ linked g x c) -> exists r, l = r ++ [finish].
Proof.
  intros Hnd Ht Hf Hsnk. destruct (exists_last (l := l)) as (r & x & E); [intros ->; destruct Hf|].
  assert (Hx : In x l) by (rewrite E; apply in_or_app; right; left; reflexivity).
  destruct (Hsnk x Hx) as [->|(c & Hc & L)]; [eauto|].
  exfalso. assert (C := Ht x c L Hx Hc). apply comes_before_pos in C; [|exact Hnd]. destruct C as (_ & _ & C).
  assert (Hp := pos_lt l c Hc). assert (Ep : pos l x = length r).
  { rewrite E, pos_app. rewrite E in Hnd. assert (Hn : ~ In x r) by (apply NoDup_remove_2 in Hnd; rewrite app_nil_r in Hnd; exact Hnd).
    apply existsb_nin in Hn. rewrite Hn. simpl. rewrite Nat.eqb_refl. lia. }
  rewrite E, app_length in Hp. rewrite <- E in Hp. simpl in Hp. lia.
Qed.

Lemma nodup_map_ed {A B} (f : A -> B) l : (forall a b, f a = f b -> a = b) -> NoDup l -> NoDup (map f l).
Proof.
  intros I H. induction H as [|x l Hx H IH]; cbn; constructor; [|exact IH].
  intros C. apply in_map_iff in C as (y & E & Hy). apply I in E. subst. contradiction.
Qed.
Section FromNodes.
  Variable g : graph.
  Variable nodes : list nat.
  Variables start finish : nat.
  Hypothesis Hac : acyclic (linked g).
  Hypothesis Hcl : forall x y, linked g x y -> In x nodes /\ In y nodes.
  Hypothesis Hnd : NoDup nodes.
  Hypothesis Hne : nodes <> [].
  Hypothesis Hs : ~ In start nodes.
  Hypothesis Hf : ~ In finish nodes.
  Hypothesis Hsf : start <> finish.

  Definition is_start_edge (e : edge) : Prop :=
    exists n, In n nodes /\ parents g n = [] /\ e = Ed start n 0 FS.
  Definition is_finish_edge (e : edge) : Prop :=
    exists n, In n nodes /\ children g n = [] /\ e = Ed n finish 0 FS.

  Lemma children_g1 n g1 : In n nodes ->
    g1 = g_edges g ++ map (fun n => Ed start n 0%Z FS)
           (filter (fun n => match parents g n with [] => true | _ => false end) nodes) ->
    children (Gr g1 (g_unit g)) n = children g n.
  Proof.
    intros Hn ->. unfold children, edges_from. simpl. rewrite filter_app, filter_app, map_app.
    match goal with |- _ ++ ?b = _ => assert (E : b = []) end; [|rewrite E, app_nil_r; reflexivity].
    induction (filter _ nodes) as [|m ms IH]; simpl; [reflexivity|].
    destruct (Nat.eqb_spec start n) as [->|]; [contradiction|exact IH].
  Qed.
  Lemma sink_exists : exists n, In n nodes /\ children g n = [].
  Proof.
    assert (Hdec : (exists n, In n nodes /\ children g n = []) \/ (forall n, In n nodes -> children g n <> [])).
    { clear. induction nodes as [|n ns IH]; [right; intros n []|]. destruct (children g n) eqn:E.
      - left. exists n. split; [left; reflexivity|exact E].
      - destruct IH as [(m & Hm & Em)|IH]; [left; exists m; split; [right; exact Hm|exact Em]|].
        right. intros m [<-|Hm]; [congruence|auto]. }
    destruct Hdec as [H|H]; [exact H|exfalso].
    apply (acyclic_minimal (fun a b => linked g b a) nodes); [apply acyclic_flip; exact Hac|exact Hne|].
    intros x Hx. specialize (H x Hx). destruct (children g x) as [|c cs] eqn:E; [congruence|].
    assert (Hc : In c (children g x)) by (rewrite E; left; reflexivity).
    unfold children in Hc. apply in_map_iff in Hc as (e & <- & He). apply filter_In in He as [He _].
    apply edges_from_in in He as [He Ef]. exists (e_to e). assert (L : linked g x (e_to e)) by (exists e; auto).
    split; [apply (Hcl _ _ L)|exact L].
  Qed.
  Lemma service_nodes_added : exists g', add_service_nodes g nodes start finish = Some g'
    /\ (exists es ef, g_edges g' = g_edges g ++ es ++ ef /\ (forall e, In e es <-> is_start_edge e) /\ (forall e, In e ef <-> is_finish_edge e)
          /\ NoDup es /\ NoDup ef)
    /\ (forall n, In n nodes -> g_unit g' n = g_unit g n)
    /\ (forall n, g_unit g' n = if Nat.eqb n start || Nat.eqb n finish then WU true [] 0%Z else g_unit g n).
  Proof.
    unfold add_service_nodes.
    set (g1 := g_edges g ++ map _ _).
    destruct (filter (fun n => match children (Gr g1 (g_unit g)) n with [] => true | _ => false end) nodes) as [|m ms] eqn:E.
    - exfalso. destruct sink_exists as (n & Hn & En).
      assert (C : In n (filter (fun n => match children (Gr g1 (g_unit g)) n with [] => true | _ => false end) nodes)).
      { apply filter_In. split; [exact Hn|]. rewrite (children_g1 n g1 Hn eq_refl), En. reflexivity. }
      rewrite E in C. destruct C.
    - eexists. split; [reflexivity|]. split.
      + eexists _, _. cbn [g_edges]. unfold g1. rewrite <- app_assoc. split; [reflexivity|]. split; [|split; [|split]].
        * intros e. rewrite in_map_iff. unfold is_start_edge. split.
          -- intros (n & <- & H). apply filter_In in H as [H Hp]. exists n. destruct (parents g n); [auto|discriminate].
          -- intros (n & Hn & Ep & ->). exists n. split; [reflexivity|]. apply filter_In. rewrite Ep. auto.
        * intros e. rewrite <- E. rewrite in_map_iff. unfold is_finish_edge. split.
          -- intros (n & <- & H). apply filter_In in H as [H Hp]. rewrite (children_g1 n g1 H eq_refl) in Hp.
             exists n. destruct (children g n); [auto|discriminate].
          -- intros (n & Hn & Ep & ->). exists n. split; [reflexivity|]. apply filter_In.
             rewrite (children_g1 n g1 Hn eq_refl), Ep. auto.
        * apply nodup_map_ed; [intros a b Eab; injection Eab; auto|]. apply NoDup_filter, Hnd.
        * rewrite <- E. apply nodup_map_ed; [intros a b Eab; injection Eab; auto|]. apply NoDup_filter, Hnd.
      + split.
        * intros n Hn. cbn [g_unit]. destruct (Nat.eqb_spec n start) as [->|]; [contradiction|].
          destruct (Nat.eqb_spec n finish) as [->|]; [contradiction|]. reflexivity.
        * intros n. cbn [g_unit]. destruct (Nat.eqb n start), (Nat.eqb n finish); reflexivity.
  Qed.

  Lemma from_nodes_spec : exists w, from_nodes g nodes start finish = Some (Ends w)
    /\ wg_start w = start /\ wg_finish w = finish
    /\ (exists middle, wg_nodes w = start :: middle ++ [finish] /\ Permutation middle nodes)
    /\ topological (linked (wg_graph w)) (wg_nodes w)
    /\ (exists es ef, g_edges (wg_graph w) = g_edges g ++ es ++ ef
         /\ (forall e, In e es <-> is_start_edge e) /\ (forall e, In e ef <-> is_finish_edge e) /\ NoDup es /\ NoDup ef)
    /\ (forall n, In n nodes -> g_unit (wg_graph w) n = g_unit g n)
    /\ (forall n, g_unit (wg_graph w) n = if Nat.eqb n start || Nat.eqb n finish then WU true [] 0%Z else g_unit g n).
  Proof.
    destruct service_nodes_added as (g' & E & (es & ef & Ee & Hes & Hef & Hn1 & Hn2) & Hu).
    assert (HL : forall x y, linked g' x y <-> linked g x y \/ (x = start /\ In y nodes /\ parents g y = [])
                             \/ (In x nodes /\ children g x = [] /\ y = finish)).
    { intros x y. unfold linked. rewrite Ee. split.
      - intros (e & He & Ef & Et). rewrite !in_app_iff, Hes, Hef in He. destruct He as [He|[(n & Hn & Ep & ->)|(n & Hn & Ep & ->)]]; simpl in *; subst; eauto 10.
      - intros [(e & He & Ef & Et)|[(-> & Hy & Hp)|(Hx & Hc & ->)]].
        + exists e. rewrite in_app_iff. auto.
        + exists (Ed start y 0 FS). rewrite !in_app_iff, Hes. split; [right; left; exists y; auto|auto].
        + exists (Ed x finish 0 FS). rewrite !in_app_iff, Hef. split; [right; right; exists x; auto|auto]. }
    set (all := start :: nodes ++ [finish]).
    assert (Hcl' : forall x y, linked g' x y -> In x all /\ In y all).
    { intros x y L. apply HL in L. unfold all. simpl. rewrite !in_app_iff. simpl.
      destruct L as [L|[(-> & Hy & _)|(Hx & _ & ->)]]; [|auto|auto]. destruct (Hcl _ _ L). auto. }
    assert (Hin : forall x y, linked g' x y -> y <> start /\ x <> finish).
    { intros x y L. apply HL in L. destruct L as [L|[(-> & Hy & _)|(Hx & _ & ->)]].
      - destruct (Hcl _ _ L). split; intros ->; contradiction.
      - split; [intros ->; contradiction|exact Hsf].
      - split; [intros E'; apply Hsf; auto|intros ->; contradiction]. }
    assert (Hac' : acyclic (linked g')).
    { assert (G : forall x y, path (linked g') x y -> x <> start -> y <> finish -> path (linked g) x y).
      { intros x y H. apply clos_trans_t1n in H. induction H as [x y L|x y z L H IH]; intros Hx Hy.
        - apply t_step. apply HL in L. destruct L as [L|[(-> & _)|(_ & _ & ->)]]; [exact L|congruence|congruence].
        - assert (Hy' : y <> start) by apply (Hin _ _ L).
          assert (Hyf : y <> finish).
          { destruct H as [z L'|u z L' _]; apply (Hin _ _ L'). }
          eapply t_trans; [|apply IH; assumption]. apply t_step. apply HL in L.
          destruct L as [L|[(-> & _)|(_ & _ & ->)]]; [exact L|congruence|congruence]. }
      assert (G' : forall x y, path (linked g') x y -> x <> finish /\ y <> start).
      { induction 1 as [x y L|x y z _ IH1 _ IH2]; [destruct (Hin _ _ L); auto|]. split; [apply IH1|apply IH2]. }
      intros x Hx. apply (Hac x). apply G; [exact Hx|apply (G' x x Hx)|apply (G' x x Hx)]. }
    assert (Hnd' : NoDup all).
    { unfold all. constructor; [rewrite in_app_iff; simpl; intuition congruence|].
      apply nodup_app_i; [exact Hnd|repeat constructor; intros []|]. intros x Hx [<-|[]]. contradiction. }
    assert (Hdp : forall x, In x nodes -> exists p, linked g' p x).
    { intros x Hx. destruct (parents g x) as [|p ps] eqn:Ep.
      - exists start. apply HL. auto.
      - assert (Hp : In p (parents g x)) by (rewrite Ep; left; reflexivity). apply parents_in in Hp as (e & He & _ & Ef & Et).
        exists p. apply HL. left. exists e. auto. }
    assert (Hdc : forall x, In x nodes -> exists c, linked g' x c).
    { intros x Hx. destruct (children g x) as [|c cs] eqn:Ec.
      - exists finish. apply HL. auto.
      - assert (Hc : In c (children g x)) by (rewrite Ec; left; reflexivity).
        unfold children in Hc. apply in_map_iff in Hc as (e & <- & He). apply filter_In in He as [He _].
        apply edges_from_in in He as [He Ef]. exists (e_to e). apply HL. left. exists e. auto. }
    destruct (topological_traversal_correct g' all start Hac' Hcl' Hnd') as (l & El & HP & HT).
    - left. reflexivity.
    - intros x Hx. unfold all in Hx. simpl in Hx. rewrite in_app_iff in Hx. destruct Hx as [<-|[Hx|[<-|[]]]]; [auto|auto|].
      right. destruct sink_exists as (n & Hn & En). exists n. apply HL. auto.
    - exists (WG g' start finish l). unfold from_nodes, make_work_graph. rewrite E, El.
      split; [reflexivity|]. split; [reflexivity|]. split; [reflexivity|]. cbn [wg_nodes wg_graph].
      assert (Hl : NoDup l) by (eapply Permutation_NoDup; [apply Permutation_sym; exact HP|exact Hnd']).
      assert (Hi : forall x, In x l <-> In x all).
      { intros x. split; apply Permutation_in; [exact HP|apply Permutation_sym; exact HP]. }
      split; [|split; [exact HT|split; [exists es, ef; auto|exact Hu]]].
      destruct (first_is_source g' l start Hl HT) as (r & Er).
      + apply Hi. left. reflexivity.
      + intros x Hx. apply Hi in Hx. unfold all in Hx. simpl in Hx. rewrite in_app_iff in Hx.
        assert (G : (exists p, linked g' p x) -> x = start \/ exists p, In p l /\ linked g' p x).
        { intros (p & L). right. exists p. split; [apply Hi; apply (Hcl' _ _ L)|exact L]. }
        destruct Hx as [<-|[Hx|[<-|[]]]]; [auto|auto|]. apply G. destruct sink_exists as (n & Hn & En). exists n. apply HL. auto.
      + destruct (last_is_sink g' l finish Hl HT) as (r' & Er').
        * apply Hi. right. apply in_or_app. right. left. reflexivity.
        * intros x Hx. apply Hi in Hx. unfold all in Hx. simpl in Hx. rewrite in_app_iff in Hx.
          assert (G : (exists c, linked g' x c) -> x = finish \/ exists c, In c l /\ linked g' x c).
          { intros (c & L). right. exists c. split; [apply Hi; apply (Hcl' _ _ L)|exact L]. }
          destruct Hx as [<-|[Hx|[<-|[]]]]; [|auto|auto]. apply G.
          (* some node has no parents *)
          clear -HL Hac Hne Hcl.
          assert (Hdec : (exists n, In n nodes /\ parents g n = []) \/ (forall n, In n nodes -> parents g n <> [])).
          { clear. induction nodes as [|n ns IH]; [right; intros n []|]. destruct (parents g n) eqn:E.
            - left. exists n. split; [left; reflexivity|exact E].
            - destruct IH as [(m & Hm & Em)|IH]; [left; exists m; split; [right; exact Hm|exact Em]|].
              right. intros m [<-|Hm]; [congruence|auto]. }
          destruct Hdec as [(n & Hn & En)|H]; [exists n; apply HL; auto|exfalso].
          apply (acyclic_minimal (linked g) nodes Hac Hne). intros x Hx. specialize (H x Hx).
          destruct (parents g x) as [|p ps] eqn:Ep; [congruence|].
          assert (Hp : In p (parents g x)) by (rewrite Ep; left; reflexivity). apply parents_in in Hp as (e & He & _ & Ef & Et).
          exists p. assert (L : linked g p x) by (exists e; auto). split; [apply (Hcl _ _ L)|exact L].
        * assert (Er2 := Er). rewrite Er' in Er2. destruct r' as [|z middle]; simpl in Er2.
          { injection Er2 as E1 E2. exfalso. apply Hsf. auto. }
          injection Er2 as -> E2. exists middle. split; [rewrite Er'; reflexivity|].
          rewrite Er' in HP. unfold all in HP. simpl in HP. apply Permutation_cons_inv in HP.
          eapply Permutation_app_inv_r. exact HP.
  Qed.
End FromNodes.

(** A work graph made from a non-empty list of works without cyclic links: the service
    start node comes first, the service finish node last, every work once in between, and
    every node after all its predecessors. The links between works are kept; exactly the
    works without dependency predecessors (successors) are linked to start (finish), once
    each. Start and finish are service units without requirements; the works keep theirs. *)
Theorem from_nodes_correct (g : graph) (nodes : list nat) (start finish : nat) :
  acyclic (linked g) -> (forall x y, linked g x y -> In x nodes /\ In y nodes) -> NoDup nodes -> nodes <> [] ->
  ~ In start nodes -> ~ In finish nodes -> start <> finish ->
  exists w, from_nodes g nodes start finish = Some (Ends w)
    /\ wg_start w = start /\ wg_finish w = finish
    /\ (exists middle, wg_nodes w = start :: middle ++ [finish] /\ Permutation middle nodes)
    /\ topological (linked (wg_graph w)) (wg_nodes w)
    /\ (exists es ef, g_edges (wg_graph w) = g_edges g ++ es ++ ef
         /\ (forall e, In e es <-> exists n, In n nodes /\ parents g n = [] /\ e = Ed start n 0 FS)
         /\ (forall e, In e ef <-> exists n, In n nodes /\ children g n = [] /\ e = Ed n finish 0 FS)
         /\ NoDup es /\ NoDup ef)
    /\ (forall n, In n nodes -> g_unit (wg_graph w) n = g_unit g n)
    /\ (forall n, g_unit (wg_graph w) n = if Nat.eqb n start || Nat.eqb n finish then WU true [] 0%Z else g_unit g n).
Proof.
  intros H1 H2 H3 H4 H5 H6 H7. exact (from_nodes_spec g nodes start finish H1 H2 H3 H4 H5 H6 H7).
Qed.
Print Assumptions from_nodes_correct.

Example from_nodes_example :
  match from_nodes px_graph [3; 1; 0; 2]%nat 8 9 with
  | Some (Ends w) => wg_nodes w = [8; 0; 1; 3; 2; 9]%nat
                     /\ map (fun e => (e_from e, e_to e)) (g_edges (wg_graph w))
                        = [(0, 1); (1, 2); (0, 3); (1, 3); (8, 0); (3, 9); (2, 9)]%nat
  | _ => False
  end.
Proof. vm_compute. split; reflexivity. Qed.

(** ** C38: serialization *)

Definition single_start (g : graph) (nodes : list nat) (start : nat) : Prop :=
  In start nodes /\ forall x, In x nodes -> x = start \/ exists p, linked g p x.
Definition single_finish (g : graph) (nodes : list nat) (finish : nat) : Prop :=
  In finish nodes /\ forall x, In x nodes -> x = finish \/ exists c, linked g x c.

Lemma rebuild_spec g0 : forall l known g,
  (forall pre n post, l = pre ++ n :: post -> forall x, linked g0 x n -> In x known \/ In x pre) ->
  exists u,
  rebuild (map (fun n => NI n (g_unit g0 n) (map (fun e => (e_from e, e_lag e, e_type e)) (edges_to g0 n))) l) known g
  = Some (rev l ++ known, Gr (g_edges g ++ concat (map (edges_to g0) l)) u)
  /\ forall n, u n = if mem n l then g_unit g0 n else g_unit g n.
Proof.
  induction l as [|n l IH]; intros known g H; cbn [map rebuild ni_id ni_unit ni_parents].
  - exists (g_unit g). simpl. rewrite app_nil_r. destruct g; auto.
  - destruct (forallb _ _) eqn:Ef.
    + rewrite map_map. cbn [fst snd].
      assert (Em : map (fun e => Ed (e_from e) n (e_lag e) (e_type e)) (edges_to g0 n) = edges_to g0 n).
      { rewrite <- (map_id (edges_to g0 n)) at 2. apply map_ext_in. intros e He. apply edges_to_in in He as [_ <-]. destruct e; reflexivity. }
      rewrite Em. edestruct IH as (u & Eu & Hu).
      2:{ exists u. rewrite Eu. split; [cbn [g_edges concat]; simpl; rewrite <- !app_assoc; reflexivity|].
          intros m. rewrite Hu, mem_cons. cbn [g_unit]. destruct (Nat.eqb_spec m n) as [->|]; simpl; destruct (mem _ l); reflexivity. }
      intros pre m post E x L. destruct (H (n :: pre) m post) with (x := x) as [Hk|[<-|Hk]]; [rewrite E; reflexivity|exact L| | |]; simpl; auto.
    + exfalso. assert (C : forallb (fun p => mem (fst (fst p)) known) (map (fun e => (e_from e, e_lag e, e_type e)) (edges_to g0 n)) = true).
      { apply forallb_forall. intros p Hp. apply in_map_iff in Hp as (e & <- & He). simpl. apply edges_to_in in He as [He Et].
        apply mem_in. destruct (H [] n l eq_refl (e_from e)) as [Hk|[]]; [exists e; auto|exact Hk]. }
      congruence.
Qed.
Lemma edges_to_concat g n : forall l, NoDup l -> 
  filter (fun e => Nat.eqb (e_to e) n) (concat (map (edges_to g) l)) = if mem n l then edges_to g n else [].
Proof.
  induction l as [|z l IH]; intros Hnd; [reflexivity|]. inversion Hnd; subst. cbn [map concat]. rewrite filter_app, IH, mem_cons by assumption.
  assert (E : filter (fun e => Nat.eqb (e_to e) n) (edges_to g z) = if Nat.eqb n z then edges_to g z else []).
  { unfold edges_to. induction (g_edges g) as [|e es IHe]; simpl; [destruct (n =? z)%nat; reflexivity|].
    destruct (Nat.eqb_spec (e_to e) z) as [Ez|Ez]; simpl; rewrite IHe.
    - rewrite Ez. destruct (Nat.eqb_spec z n), (Nat.eqb_spec n z); congruence.
    - destruct (n =? z)%nat; reflexivity. }
  rewrite E. destruct (Nat.eqb_spec n z) as [->|]; simpl; [|reflexivity].
  apply mem_nin in H1. rewrite H1, app_nil_r. reflexivity.
Qed.
Lemma edges_partition (es : list edge) : forall l, NoDup l -> (forall e, In e es -> In (e_to e) l) ->
  Permutation (concat (map (fun n => filter (fun e => Nat.eqb (e_to e) n) es) l)) es.
Proof.
  induction es as [|e es IH]; intros l Hnd Hin.
  - assert (E : concat (map (fun n => filter (fun e => Nat.eqb (e_to e) n) []) l) = []) by (clear; induction l; simpl; auto).
    rewrite E. constructor.
  - assert (He := Hin e (or_introl eq_refl)). apply in_split in He as (l1 & l2 & E).
    eapply Permutation_trans; [|apply perm_skip; apply (IH l Hnd); intros x Hx; apply Hin; right; exact Hx].
    rewrite E in *. clear E IH Hin. rewrite !map_app, !concat_app. cbn [map concat filter]. rewrite Nat.eqb_refl.
    assert (G : forall l, ~ In (e_to e) l -> map (fun n => filter (fun e => Nat.eqb (e_to e) n) (e :: es)) l
                        = map (fun n => filter (fun e => Nat.eqb (e_to e) n) es) l).
    { intros l' Hn. apply map_ext_in. intros n Hn'. simpl. destruct (Nat.eqb_spec (e_to e) n) as [<-|]; [contradiction|reflexivity]. }
    assert (Hn := NoDup_remove_2 _ _ _ Hnd). rewrite in_app_iff in Hn. cbn [filter] in G. rewrite !G by tauto.
    simpl. apply Permutation_sym. apply Permutation_middle.
Qed.

(** Serializing and deserializing a work graph with one start and one finish node and no
    cycle fails in no way and gives a graph with the same start, finish, works (each with
    its own work unit) and the same links; each node's incoming links, with their types
    and lags, are even in the same order. *)
Theorem serialization_round_trip (g : graph) (nodes : list nat) (start finish : nat) :
  acyclic (linked g) -> (forall x y, linked g x y -> In x nodes /\ In y nodes) -> NoDup nodes ->
  single_start g nodes start -> single_finish g nodes finish ->
  exists w w', make_work_graph g start finish = Ends w
    /\ deserialize (serialize w) = Restored (Ends w')
    /\ wg_start w' = start /\ wg_finish w' = finish
    /\ Permutation (wg_nodes w') nodes /\ Permutation (wg_nodes w) nodes
    /\ topological (linked (wg_graph w')) (wg_nodes w')
    /\ Permutation (g_edges (wg_graph w')) (g_edges g)
    /\ (forall n, In n nodes -> edges_to (wg_graph w') n = edges_to g n /\ g_unit (wg_graph w') n = g_unit g n).
Proof.
  intros Hac Hcl Hnd [Hs Hsrc] [Hf Hsnk].
  destruct (topological_traversal_correct g nodes start Hac Hcl Hnd Hs Hsrc) as (l & El & HP & HT).
  assert (Hi : forall x, In x l <-> In x nodes) by (intros x; split; apply Permutation_in; [exact HP|apply Permutation_sym; exact HP]).
  assert (Hl : NoDup l) by (eapply Permutation_NoDup; [apply Permutation_sym; exact HP|exact Hnd]).
  destruct (first_is_source g l start Hl HT) as (r & Er); [apply Hi; exact Hs| |].
  { intros x Hx. apply Hi in Hx. destruct (Hsrc x Hx) as [->|(p & L)]; [auto|]. right. exists p. split; [apply Hi, (Hcl _ _ L)|exact L]. }
  destruct (last_is_sink g l finish Hl HT) as (r' & Er'); [apply Hi; exact Hf| |].
  { intros x Hx. apply Hi in Hx. destruct (Hsnk x Hx) as [->|(p & L)]; [auto|]. right. exists p. split; [apply Hi, (Hcl _ _ L)|exact L]. }
  exists (WG g start finish l). unfold make_work_graph at 1. rewrite El.
  assert (Hcond : forall pre n post, l = pre ++ n :: post -> forall x, linked g x n -> In x [] \/ In x pre).
  { intros pre n post E x L. right. assert (Hn : In n l) by (rewrite E; apply in_or_app; right; left; reflexivity).
    assert (Hx : In x l) by (apply Hi, (Hcl _ _ L)). assert (C := HT x n L Hx Hn). apply comes_before_pos in C; [|exact Hl].
    destruct C as (_ & _ & C). rewrite E in C, Hl. rewrite !pos_app in C.
    destruct (existsb (Nat.eqb x) pre) eqn:Ex; [apply existsb_in; exact Ex|exfalso].
    assert (Hnn : ~ In n pre) by (apply NoDup_remove_2 in Hl; rewrite in_app_iff in Hl; tauto).
    apply existsb_nin in Hnn. rewrite Hnn in C. simpl in C. rewrite Nat.eqb_refl in C. destruct (n =? x)%nat; lia. }
  destruct (rebuild_spec g l [] (Gr [] (fun _ => WU true [] 0%Z)) Hcond) as (u & Eu & Hu). cbn [g_edges app] in Eu.
  set (g2 := Gr (concat (map (edges_to g) l)) u) in *.
  assert (Hto : forall n, In n nodes -> edges_to g2 n = edges_to g n).
  { intros n Hn. unfold edges_to at 1. unfold g2. cbn [g_edges]. rewrite edges_to_concat by exact Hl.
    apply Hi, mem_in in Hn. rewrite Hn. reflexivity. }
  assert (HPe : Permutation (g_edges g2) (g_edges g)).
  { unfold g2. cbn [g_edges]. apply edges_partition; [exact Hl|]. intros e He. apply Hi. apply (Hcl (e_from e) (e_to e)). exists e. auto. }
  assert (HL2 : forall x y, linked g2 x y <-> linked g x y).
  { intros x y. split; intros (e & He & H); exists e; (split; [|exact H]); eapply Permutation_in; try exact He; [exact HPe|apply Permutation_sym; exact HPe]. }
  destruct (topological_traversal_correct g2 nodes start) as (l2 & El2 & HP2 & HT2); auto.
  { intros x Hx. apply (Hac x). eapply path_incl; [|exact Hx]. intros a b. apply HL2. }
  { intros x y L. apply HL2 in L. auto. }
  { intros x Hx. destruct (Hsrc x Hx) as [->|(p & L)]; [auto|]. right. exists p. apply HL2. exact L. }
  assert (Ee : edges_to g start = []).
  { destruct (edges_to g start) as [|e es] eqn:Ee; [reflexivity|exfalso].
    assert (He : In e (edges_to g start)) by (rewrite Ee; left; reflexivity). apply edges_to_in in He as [He Et].
    assert (L : linked g (e_from e) start) by (exists e; auto). assert (Hx : In (e_from e) l) by (apply Hi, (Hcl _ _ L)).
    assert (C := HT _ _ L Hx (proj2 (Hi start) Hs)). apply comes_before_pos in C; [|exact Hl]. rewrite Er in C. simpl in C. rewrite Nat.eqb_refl in C. lia. }
  exists (WG g2 start finish l2). split; [reflexivity|]. split.
  - unfold serialize. cbn [wg_nodes wg_graph].
    set (f := fun n => NI n (g_unit g n) (map (fun e => (e_from e, e_lag e, e_type e)) (edges_to g n))) in *.
    assert (Hlast : forall d, ni_id (last (map f l) d) = finish).
    { intros d. rewrite Er', map_app. simpl. rewrite last_last. reflexivity. }
    assert (Hfirst : exists rest, map f l = f start :: rest) by (rewrite Er; simpl; eauto). destruct Hfirst as (rest & Hfirst).
    assert (Hd : deserialize (map f l) = match ni_parents (f start) with
      | _ :: _ => AssertionErr
      | [] => match rebuild (map f l) [] (Gr [] (fun _ => WU true [] 0%Z)) with
              | None => KeyErr
              | Some (_, g) => Restored (make_work_graph g (ni_id (f start)) (ni_id (last (map f l) (f start))))
              end
      end) by (rewrite Hfirst; reflexivity).
    rewrite Hd, Hlast, Eu. unfold f. cbn [ni_parents ni_id]. rewrite Ee. cbn [map]. unfold make_work_graph. rewrite El2. reflexivity.
  - cbn [wg_start wg_finish wg_nodes wg_graph]. split; [reflexivity|]. split; [reflexivity|]. split; [exact HP2|]. split; [exact HP|].
    split; [exact HT2|]. split; [exact HPe|]. intros n Hn. split; [apply (Hto n Hn)|].
    unfold g2. cbn [g_unit]. rewrite Hu. apply Hi, mem_in in Hn. rewrite Hn. reflexivity.
Qed.
Print Assumptions serialization_round_trip.

(** A graph that meets the conditions. *)
Definition rx_graph : graph :=
  Gr [Ed 0 2 0 FS; Ed 0 1 0 FS; Ed 1 3 2 FFS; Ed 2 3 5 FS]%nat%Z (fun n => WU false [] (Z.of_nat n)).
Example round_trip_example :
  acyclic (linked rx_graph) /\ (forall x y, linked rx_graph x y -> In x [0; 1; 2; 3]%nat /\ In y [0; 1; 2; 3]%nat)
  /\ single_start rx_graph [0; 1; 2; 3]%nat 0 /\ single_finish rx_graph [0; 1; 2; 3]%nat 3
  /\ match make_work_graph rx_graph 0 3 with
     | Ends w => match deserialize (serialize w) with
                 | Restored (Ends w') => wg_nodes w = [0; 2; 1; 3]%nat /\ wg_nodes w' = [0; 2; 1; 3]%nat
                     /\ edges_to (wg_graph w') 3 = [Ed 1 3 2 FFS; Ed 2 3 5 FS]%nat%Z
                 | _ => False
                 end
     | Running => False
     end.
Proof.
  assert (H : forall x y, linked rx_graph x y -> In (x, y) [(0, 2); (0, 1); (1, 3); (2, 3)]%nat).
  { intros x y (e & He & <- & <-). simpl in He. repeat (destruct He as [<-|He]; [simpl; tauto|]). destruct He. }
  split; [|split; [|split; [|split; [|vm_compute; repeat split; reflexivity]]]].
  - apply (topological_acyclic _ [0; 1; 2; 3]%nat); [repeat constructor; simpl; intuition discriminate| |].
    + intros x y Hxy _ _. apply H in Hxy. simpl in Hxy.
      apply comes_before_pos; [repeat constructor; simpl; intuition discriminate|].
      destruct Hxy as [[= <- <-]|[[= <- <-]|[[= <- <-]|[[= <- <-]|[]]]]]; simpl; intuition lia.
    + intros x y Hxy. apply H in Hxy. simpl in *. intuition congruence.
  - intros x y Hxy. apply H in Hxy. simpl in *. intuition congruence.
  - split; [left; reflexivity|]. intros x [<-|[<-|[<-|[<-|[]]]]]; [auto| | |]; right.
    + exists 0%nat, (Ed 0 1 0 FS)%nat%Z. simpl. auto.
    + exists 0%nat, (Ed 0 2 0 FS)%nat%Z. simpl. auto.
    + exists 1%nat, (Ed 1 3 2 FFS)%nat%Z. simpl. auto 10.
  - split; [simpl; auto|]. intros x [<-|[<-|[<-|[<-|[]]]]]; [| | |auto]; right.
    + exists 1%nat, (Ed 0 1 0 FS)%nat%Z. simpl. auto.
    + exists 3%nat, (Ed 1 3 2 FFS)%nat%Z. simpl. auto 10.
    + exists 3%nat, (Ed 2 3 5 FS)%nat%Z. simpl. auto 10.
Qed.
