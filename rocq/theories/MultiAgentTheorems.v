(** C35, C36, C53: the auction between agents, the management of blocks and the work graph
    of a block graph. *)
From Coq Require Import ZArith List Bool Lia Permutation Relations.
From Verif Require Import TimeModel ScheduleSpec Digraph TopoModel TopoProofs ScheduleProofs MultiAgentModel.
Import ListNotations.

(** ** Block graphs *)
Definition edge_of (edges : list (nat * nat)) (a b : nat) : Prop := In (a, b) edges.

Lemma fold_edges : forall edges bg,
  let r := fold_left add_block_edge edges bg in
  bg_nodes r = bg_nodes bg /\
  (forall a b, In b (bg_to r a) <-> In b (bg_to bg a) \/ In (a, b) edges) /\
  (forall a b, In a (bg_from r b) <-> In a (bg_from bg b) \/ In (a, b) edges).
Proof.
  induction edges as [|[s e] edges IH]; intros bg; cbn [fold_left].
  - cbv zeta. repeat split; intros; simpl in *; tauto.
  - destruct (IH (add_block_edge bg (s, e))) as (A & B & C). cbv zeta. split; [exact A|].
    split; intros a b; [rewrite B|rewrite C]; cbn [add_block_edge bg_to bg_from fst snd].
    + destruct (Nat.eqb_spec a s) as [->|Hne]; [rewrite in_app_iff|]; simpl; intuition congruence.
    + destruct (Nat.eqb_spec b e) as [->|Hne]; [rewrite in_app_iff|]; simpl; intuition congruence.
Qed.
Lemma block_graph_edges nodes edges :
  let bg := block_graph_of nodes edges in
  bg_nodes bg = nodes /\ (forall a b, In b (bg_to bg a) <-> edge_of edges a b) /\ (forall a b, In a (bg_from bg b) <-> edge_of edges a b).
Proof.
  destruct (fold_edges edges (pure nodes)) as (A & B & C). cbv zeta. unfold block_graph_of, edge_of.
  split; [exact A|]. split; intros a b; [rewrite B|rewrite C]; simpl; tauto.
Qed.

Section Dfs.
  Variable bg : block_graph.
  Let R (a b : nat) := In b (bg_to bg a).
  Hypothesis Hclosed : forall a b, In a (bg_nodes bg) -> R a b -> In b (bg_nodes bg).
  Let N := bg_nodes bg.
  Definition unseen (vis : list nat) : nat := length (filter (fun x => negb (mem x vis)) N).

  Lemma filter_shrinks (f g : nat -> bool) l : (forall x, In x l -> g x = true -> f x = true) -> length (filter g l) <= length (filter f l).
  Proof.
    induction l as [|x l IH]; intros H; simpl; [lia|].
    assert (IH' : length (filter g l) <= length (filter f l)) by (apply IH; intros y Hy; apply H; right; exact Hy).
    destruct (g x) eqn:G; [rewrite (H x (or_introl eq_refl) G); simpl; lia|destruct (f x); simpl; lia].
  Qed.
  Lemma filter_shrinks_lt (f g : nat -> bool) l z : (forall x, In x l -> g x = true -> f x = true) ->
    In z l -> f z = true -> g z = false -> length (filter g l) < length (filter f l).
  Proof.
    induction l as [|x l IH]; intros H Hz Hf Hg; simpl; [destruct Hz|].
    assert (W : forall y, In y l -> g y = true -> f y = true) by (intros y Hy; apply H; right; exact Hy).
    destruct Hz as [->|Hz].
    - rewrite Hf, Hg. simpl. assert (A := filter_shrinks f g l W). lia.
    - specialize (IH W Hz Hf Hg). destruct (g x) eqn:G; [rewrite (H x (or_introl eq_refl) G); simpl; lia|destruct (f x); simpl; lia].
  Qed.
  Lemma unseen_le vis vis' : incl vis vis' -> unseen vis' <= unseen vis.
  Proof. intros H. apply filter_shrinks. intros x _ Hx. apply mem_nin' in Hx. apply mem_nin'. intros Hin. apply Hx, H, Hin. Qed.
  Lemma unseen_all vis : unseen vis <= length N.
  Proof. unfold unseen. induction N as [|x l IH]; simpl; [lia|]. destruct (negb _); simpl; lia. Qed.
  Lemma unseen_lt vis u : In u N -> ~ In u vis -> unseen (u :: vis) < unseen vis.
  Proof.
    intros Hu Hn. apply (filter_shrinks_lt _ _ _ u); [|exact Hu|apply mem_nin'; exact Hn|].
    - intros x _ Hx. apply mem_nin' in Hx. apply mem_nin'. intros Hin. apply Hx. right. exact Hin.
    - apply negb_false_iff, mem_in. left. reflexivity.
  Qed.

  (** What holds between calls: [ans] are the finished blocks; without cycles all
      successors of a finished block are finished before it. *)
  Definition state_ok (vis ans : list nat) : Prop :=
    NoDup ans /\ incl ans vis /\ incl vis N /\
    (acyclic R -> forall x y, In x ans -> R x y -> comes_before ans y x).
  (** [vis', ans'] extend [vis, ans]; what is new is finished. *)
  Definition extends (vis ans vis' ans' : list nat) : Prop :=
    incl vis vis' /\ (exists more, ans' = ans ++ more /\ forall x, In x more -> ~ In x vis) /\
    forall x, In x vis' -> In x vis \/ In x ans'.

  Lemma extends_refl vis ans : extends vis ans vis ans.
  Proof. split; [apply incl_refl|]. split; [exists []; rewrite app_nil_r; split; [reflexivity|intros x []]|]. auto. Qed.
  Lemma extends_trans v1 a1 v2 a2 v3 a3 : extends v1 a1 v2 a2 -> extends v2 a2 v3 a3 -> extends v1 a1 v3 a3.
  Proof.
    intros (A & (m & -> & Am) & B) (A' & (m' & -> & Am') & B'). split; [eapply incl_tran; eauto|]. split.
    - exists (m ++ m'). rewrite app_assoc. split; [reflexivity|]. intros x Hx. apply in_app_iff in Hx as [Hx|Hx]; [apply Am, Hx|].
      intros Hv. apply (Am' x Hx), A, Hv.
    - intros x Hx. destruct (B' x Hx) as [H|H]; [|right; exact H]. destruct (B x H) as [H'|H']; [left; exact H'|right].
      apply in_app_iff. left. exact H'.
  Qed.

  Definition step (fuel : nat) (acc : option (list nat * list nat)) (v : nat) :=
    match acc with
    | None => None
    | Some (vis, ans) => if mem v vis then Some (vis, ans) else block_dfs fuel bg v (vis, ans)
    end.
  Lemma block_dfs_unfold fuel u vis ans :
    block_dfs (S fuel) bg u (vis, ans) =
    match fold_left (step fuel) (bg_to bg u) (Some (u :: vis, ans)) with
    | Some (vis', ans') => Some (vis', ans' ++ [u])
    | None => None
    end.
  Proof. reflexivity. Qed.

  Definition dfs_ok (fuel : nat) : Prop := forall u vis ans,
    In u N -> ~ In u vis -> state_ok vis ans -> unseen vis <= fuel ->
    (acyclic R -> forall x, In x vis -> In x ans \/ path R x u) ->
    exists vis' ans', block_dfs fuel bg u (vis, ans) = Some (vis', ans') /\ state_ok vis' ans' /\
      extends vis ans vis' ans' /\ In u ans'.

  (** The loop over a list of blocks. *)
  Lemma loop_ok fuel : dfs_ok fuel -> forall l vis ans,
    incl l N -> state_ok vis ans -> unseen vis <= fuel ->
    (acyclic R -> forall v x, In v l -> In x vis -> In x ans \/ path R x v) ->
    exists vis' ans', fold_left (step fuel) l (Some (vis, ans)) = Some (vis', ans') /\ state_ok vis' ans' /\
      extends vis ans vis' ans' /\ (forall v, In v l -> In v vis').
  Proof.
    intros Hd. induction l as [|v l IH]; intros vis ans Hl Hs Hu Hg; cbn [fold_left].
    - exists vis, ans. split; [reflexivity|]. split; [exact Hs|]. split; [apply extends_refl|]. intros v [].
    - unfold step at 2. destruct (mem v vis) eqn:Ev.
      + apply mem_in in Ev. destruct (IH vis ans) as (vis' & ans' & E & Hs' & He & Hin); [intros x Hx; apply Hl; right; exact Hx|exact Hs|exact Hu|intros A w x Hw; apply (Hg A w x); right; exact Hw|].
        exists vis', ans'. split; [exact E|]. split; [exact Hs'|]. split; [exact He|]. intros w [<-|Hw]; [apply He, Ev|apply Hin, Hw].
      + apply mem_nin in Ev. destruct (Hd v vis ans (Hl v (or_introl eq_refl)) Ev Hs Hu) as (v1 & a1 & E1 & Hs1 & He1 & Hin1); [intros A x Hx; apply (Hg A v x); [left; reflexivity|exact Hx]|].
        rewrite E1. destruct (IH v1 a1) as (vis' & ans' & E & Hs' & He & Hin).
        * intros x Hx. apply Hl. right. exact Hx.
        * exact Hs1.
        * assert (B := unseen_le vis v1 (proj1 He1)). lia.
        * intros A w x Hw Hx. destruct He1 as (_ & (m & -> & _) & H3). destruct (H3 x Hx) as [Hv|Hv]; [|left; exact Hv].
          destruct (Hg A w x (or_intror Hw) Hv); [left; apply in_app_iff; left; assumption|right; assumption].
        * exists vis', ans'. split; [exact E|]. split; [exact Hs'|]. split; [eapply extends_trans; eauto|].
          intros w [<-|Hw]; [|apply Hin, Hw]. apply He. apply Hs1. exact Hin1.
  Qed.

  Lemma dfs_all : forall fuel, dfs_ok fuel.
  Proof.
    induction fuel as [|fuel IH]; intros u vis ans Hu Hn Hs Hf Hg.
    - exfalso. assert (A := unseen_lt vis u Hu Hn). lia.
    - rewrite block_dfs_unfold. destruct Hs as (S1 & S2 & S3 & S4).
      destruct (loop_ok fuel IH (bg_to bg u) (u :: vis) ans) as (vis' & ans' & E & (T1 & T2 & T3 & T4) & (E1 & (m & E2 & E2') & E3) & Hin).
      + intros x Hx. eapply Hclosed; eauto.
      + split; [exact S1|]. split; [intros x Hx; right; apply S2, Hx|]. split; [|exact S4]. intros x [<-|Hx]; [exact Hu|apply S3, Hx].
      + assert (A := unseen_lt vis u Hu Hn). lia.
      + intros A v x Hv [<-|Hx]; [right; apply t_step; exact Hv|]. destruct (Hg A x Hx) as [H|H]; [left; exact H|right].
        eapply t_trans; [exact H|apply t_step; exact Hv].
      + rewrite E. exists vis', (ans' ++ [u]). split; [reflexivity|].
        assert (Hua : ~ In u ans').
        { rewrite E2. intros Hi. apply in_app_iff in Hi as [Hi|Hi]; [apply Hn, S2, Hi|]. apply (E2' u Hi). left. reflexivity. }
        split; [|split].
        * split; [apply nodup_app_i; [exact T1|repeat constructor; intros []|intros x Hx [<-|[]]; contradiction]|].
          split; [intros x Hx; apply in_app_iff in Hx as [Hx|[<-|[]]]; [apply T2, Hx|apply E1; left; reflexivity]|].
          split; [exact T3|]. intros A x y Hx Hxy. apply in_app_iff in Hx as [Hx|[<-|[]]].
          -- apply comes_before_app_l. apply (T4 A x y Hx Hxy).
          -- apply comes_before_app_lr; [|left; reflexivity]. specialize (Hin y Hxy).
             destruct (E3 y Hin) as [[<-|Hv]|Hv]; [exfalso; apply (A u), t_step, Hxy| |exact Hv].
             destruct (Hg A y Hv) as [Ha|Hp]; [rewrite E2; apply in_app_iff; left; exact Ha|].
             exfalso. apply (A u). eapply t_trans; [apply t_step, Hxy|exact Hp].
        * split; [intros x Hx; apply E1; right; exact Hx|]. split.
          -- exists (m ++ [u]). rewrite E2, app_assoc. split; [reflexivity|]. intros x Hx. apply in_app_iff in Hx as [Hx|[<-|[]]]; [|exact Hn].
             intros Hv. apply (E2' x Hx). right. exact Hv.
          -- intros x Hx. destruct (E3 x Hx) as [[<-|Hv]|Hv]; [right; apply in_app_iff; right; left; reflexivity|left; exact Hv|right; apply in_app_iff; left; exact Hv].
        * apply in_app_iff. right. left. reflexivity.
  Qed.

  (** At the outermost level nothing is unfinished. *)
  Lemma outer_ok fuel : length N <= fuel -> forall l vis ans,
    incl l N -> state_ok vis ans -> (forall x, In x vis -> In x ans) ->
    exists vis' ans', fold_left (step fuel) l (Some (vis, ans)) = Some (vis', ans') /\ state_ok vis' ans' /\
      (forall x, In x vis' -> In x ans') /\ incl vis vis' /\ (forall v, In v l -> In v vis').
  Proof.
    intros Hf. induction l as [|v l IH]; intros vis ans Hl Hs Hg; cbn [fold_left].
    - exists vis, ans. split; [reflexivity|]. split; [exact Hs|]. split; [exact Hg|]. split; [apply incl_refl|intros v []].
    - unfold step at 2. destruct (mem v vis) eqn:Ev.
      + apply mem_in in Ev. destruct (IH vis ans) as (vis' & ans' & E & Hs' & Hg' & Hi & Hin); [intros x Hx; apply Hl; right; exact Hx|exact Hs|exact Hg|].
        exists vis', ans'. split; [exact E|]. split; [exact Hs'|]. split; [exact Hg'|]. split; [exact Hi|]. intros w [<-|Hw]; [apply Hi, Ev|apply Hin, Hw].
      + apply mem_nin in Ev. destruct (dfs_all fuel v vis ans (Hl v (or_introl eq_refl)) Ev Hs) as (v1 & a1 & E1 & Hs1 & He1 & Hin1).
        * assert (A : unseen vis <= length N) by (apply unseen_all). lia.
        * intros _ x Hx. left. apply Hg, Hx.
        * rewrite E1. destruct (IH v1 a1) as (vis' & ans' & E & Hs' & Hg' & Hi & Hin).
          -- intros x Hx. apply Hl. right. exact Hx.
          -- exact Hs1.
          -- intros x Hx. destruct He1 as (_ & (m & -> & _) & H3). destruct (H3 x Hx) as [Hv|Hv]; [apply in_app_iff; left; apply Hg, Hv|exact Hv].
          -- exists vis', ans'. split; [exact E|]. split; [exact Hs'|]. split; [exact Hg'|]. split; [eapply incl_tran; [apply He1|exact Hi]|].
             intros w [<-|Hw]; [|apply Hin, Hw]. apply Hi. apply Hs1. exact Hin1.
  Qed.
End Dfs.

Lemma comes_before_rev (l : list nat) a b : comes_before l a b -> comes_before (rev l) b a.
Proof.
  intros (l1 & l2 & l3 & ->). exists (rev l3), (rev l2), (rev l1).
  repeat (rewrite rev_app_distr; cbn [rev]; repeat rewrite <- app_assoc). simpl. reflexivity.
Qed.

(** The blocks of a graph without cycles are listed once each, in topological order; with
    cycles they are listed in some order. *)
Theorem block_toposort_correct nodes edges : NoDup nodes ->
  (forall a b, edge_of edges a b -> In a nodes /\ In b nodes) ->
  exists order, block_toposort (block_graph_of nodes edges) = Some order /\ Permutation order nodes /\
    (acyclic (edge_of edges) -> topological (edge_of edges) order).
Proof.
  intros Hnd He. set (bg := block_graph_of nodes edges).
  destruct (block_graph_edges nodes edges) as (A & B & C). fold bg in A, B, C.
  unfold block_toposort.
  assert (Hc : forall a b, In a (bg_nodes bg) -> In b (bg_to bg a) -> In b (bg_nodes bg)) by (intros a b _ Hb; rewrite A; apply (He a b), B, Hb).
  destruct (outer_ok bg Hc (S (length (bg_nodes bg))) ltac:(lia) (bg_nodes bg) [] []) as (vis & ans & E & (S1 & S2 & S3 & S4) & Hg & _ & Hin).
  - apply incl_refl.
  - split; [constructor|]. split; [apply incl_refl|]. split; [intros x []|]. intros _ x y [].
  - intros x [].
  - change (fold_left (step bg (S (length (bg_nodes bg)))) (bg_nodes bg) (Some ([], [])) = Some (vis, ans)) in E.
    unfold step in E. rewrite E. exists (rev ans). split; [reflexivity|]. split.
    + eapply Permutation_trans; [apply Permutation_sym, Permutation_rev|].
      apply NoDup_Permutation; [exact S1|exact Hnd|]. intros x. rewrite <- A. split; intros Hx; [apply S3, S2, Hx|apply Hg, Hin, Hx].
    + intros Ha x y Hxy Hx Hy. apply comes_before_rev. apply S4; [|apply in_rev, Hx|apply B, Hxy].
      intros z Hz. apply (Ha z). exact (path_incl _ _ z z (fun a b H => proj1 (B a b) H) Hz).
Qed.
Print Assumptions block_toposort_correct.

(** Finding: a copy of a block graph has all its edges reversed. *)
Theorem copy_reverses nodes edges : NoDup nodes -> (forall a b, edge_of edges a b -> In a nodes /\ In b nodes) ->
  forall a b, In b (bg_to (copy_block_graph (block_graph_of nodes edges)) a) <-> edge_of edges b a.
Proof.
  intros Hnd He a b. set (bg := block_graph_of nodes edges).
  destruct (block_graph_edges nodes edges) as (A & B & C). fold bg in A, B, C. unfold copy_block_graph.
  assert (K1 : forall l n c x y, In y (bg_to (fold_left (fun c p => add_block_edge c (p, n)) l c) x) <-> In y (bg_to c x) \/ (y = n /\ In x l)).
  { induction l as [|p l IH]; intros n c x y; cbn [fold_left]; [simpl; tauto|]. rewrite IH. cbn [add_block_edge bg_to fst snd].
    destruct (Nat.eqb_spec x p) as [->|Hne]; [rewrite in_app_iff|]; simpl; intuition congruence. }
  assert (K2 : forall l c x y, In y (bg_to (fold_left (fun c n => fold_left (fun c p => add_block_edge c (p, n)) (bg_to bg n) c) l c) x)
              <-> In y (bg_to c x) \/ (In y l /\ In x (bg_to bg y))).
  { induction l as [|n l IH]; intros c x y; cbn [fold_left]; [simpl; tauto|]. rewrite IH, K1. simpl. split.
    - intros [[H|[-> H]]|[H H']]; auto.
    - intros [H|[[<-|H] H']]; auto. }
  rewrite K2, B, A. simpl. split; [tauto|]. intros H. right. split; [apply (He b a H)|exact H].
Qed.
Print Assumptions copy_reverses.

(** The work graph of a block graph: a block starts after exactly the blocks that precede
    it, blocks without predecessors start after the global start, and blocks without
    successors precede the global end. *)
Theorem to_work_graph_correct nodes edges : NoDup nodes -> (forall a b, edge_of edges a b -> In a nodes /\ In b nodes) ->
  let wg := to_work_graph (block_graph_of nodes edges) in
  (forall a b, In (FinishOf a, StartOf b) wg <-> edge_of edges a b) /\
  (forall b, In (GlobalStart, StartOf b) wg <-> In b nodes /\ forall a, ~ edge_of edges a b) /\
  (forall b, In b nodes -> (forall c, ~ edge_of edges b c) -> In (FinishOf b, GlobalEnd) wg) /\
  (forall p q, In (p, q) wg -> (exists a b, p = FinishOf a /\ q = StartOf b /\ In a nodes /\ In b nodes) \/
                               (exists b, p = GlobalStart /\ q = StartOf b /\ In b nodes) \/
                               (exists b, p = FinishOf b /\ q = GlobalEnd /\ In b nodes)).
Proof.
  intros Hnd He. cbv zeta. unfold to_work_graph.
  assert (Hcopy := copy_reverses nodes edges Hnd He).
  assert (Hcn : bg_nodes (copy_block_graph (block_graph_of nodes edges)) = nodes).
  { destruct (block_graph_edges nodes edges) as (A & _ & _). unfold copy_block_graph.
    assert (K1 : forall l n c, bg_nodes (fold_left (fun c p => add_block_edge c (p, n)) l c) = bg_nodes c).
    { induction l as [|p l IH]; intros n c; simpl; [reflexivity|]. rewrite IH. reflexivity. }
    assert (K2 : forall l c, bg_nodes (fold_left (fun c n => fold_left (fun c p => add_block_edge c (p, n)) (bg_to (block_graph_of nodes edges) n) c) l c) = bg_nodes c).
    { induction l as [|p l IH]; intros c; cbn [fold_left]; [reflexivity|]. rewrite IH. apply K1. }
    rewrite K2. exact A. }
  set (c := copy_block_graph (block_graph_of nodes edges)) in *. rewrite Hcn.
  set (F := fun (acc : list (port * port) * list nat) (b : nat) =>
     let '(edges0, ends) := acc in
     let edges1 := edges0 ++ map (fun a => (FinishOf a, StartOf b)) (bg_to c b) in
     let edges2 := match bg_to c b with [] => edges1 ++ [(GlobalStart, StartOf b)] | _ => edges1 end in
     (edges2, if existsb (fun e => match fst e with FinishOf a => Nat.eqb a b | _ => false end) edges2 then ends else ends ++ [b])).
  assert (K : forall l E0 N0, exists E1 N1, fold_left F l (E0, N0) = (E0 ++ E1, N0 ++ N1) /\
     (forall p q, In (p, q) E1 <-> (exists a b, p = FinishOf a /\ q = StartOf b /\ In b l /\ edge_of edges a b) \/
                                   (exists b, p = GlobalStart /\ q = StartOf b /\ In b l /\ forall a, ~ edge_of edges a b)) /\
     (forall b, In b N1 -> In b l) /\
     (forall b, In b l -> (forall d, ~ edge_of edges b d) -> (forall d, ~ In (FinishOf b, StartOf d) E0) -> (forall p q, In (p, q) E0 -> exists d, q = StartOf d) -> In b N1)).
  { induction l as [|b l IH]; intros E0 N0; cbn [fold_left].
    - exists [], []. rewrite !app_nil_r. split; [reflexivity|]. split; [|split; [intros b []|intros b []]].
      intros p q. split; [intros []|]. intros [(a & b & _ & _ & [] & _)|(b & _ & _ & [] & _)].
    - assert (KF : exists E1 N1, F (E0, N0) b = (E0 ++ E1, N0 ++ N1) /\
         (forall p q, In (p, q) E1 <-> (exists a, p = FinishOf a /\ q = StartOf b /\ edge_of edges a b) \/
                                       (p = GlobalStart /\ q = StartOf b /\ forall a, ~ edge_of edges a b)) /\
         (forall x, In x N1 -> x = b) /\
         ((forall d, ~ edge_of edges b d) -> (forall d, ~ In (FinishOf b, StartOf d) E0) -> (forall p q, In (p, q) E0 -> exists d, q = StartOf d) -> In b N1)).
      { cbn [F]. set (E2 := map (fun a => (FinishOf a, StartOf b)) (bg_to c b) ++ match bg_to c b with [] => [(GlobalStart, StartOf b)] | _ => [] end).
        assert (HE2 : match bg_to c b with [] => (E0 ++ map (fun a => (FinishOf a, StartOf b)) (bg_to c b)) ++ [(GlobalStart, StartOf b)]
                      | _ => E0 ++ map (fun a => (FinishOf a, StartOf b)) (bg_to c b) end = E0 ++ E2).
        { unfold E2. destruct (bg_to c b); simpl; [rewrite app_nil_r; reflexivity|]. rewrite app_nil_r. reflexivity. }
        unfold F. rewrite HE2.
        set (ex := existsb _ (E0 ++ E2)).
        assert (HinE2 : forall p q, In (p, q) E2 <-> (exists a, p = FinishOf a /\ q = StartOf b /\ edge_of edges a b) \/
                                       (p = GlobalStart /\ q = StartOf b /\ forall a, ~ edge_of edges a b)).
        { intros p q. unfold E2. rewrite in_app_iff, in_map_iff. split.
          - intros [(a & Ea & Ha)|Hg]; [left; injection Ea as <- <-; exists a; repeat split; apply Hcopy; exact Ha|right].
            destruct (bg_to c b) as [|z zs] eqn:Ez; [|destruct Hg]. destruct Hg as [Hg|[]]. injection Hg as <- <-.
            repeat split. intros a Ha. apply Hcopy in Ha. fold c in Ha. rewrite Ez in Ha. destruct Ha.
          - intros [(a & -> & -> & Ha)|(-> & -> & Hno)]; [left; exists a; split; [reflexivity|apply Hcopy, Ha]|right].
            destruct (bg_to c b) as [|z zs] eqn:Ez; [left; reflexivity|]. exfalso. apply (Hno z). apply Hcopy. fold c. rewrite Ez. left. reflexivity. }
        exists E2, (if ex then [] else [b]). split; [destruct ex; [rewrite app_nil_r|]; reflexivity|]. split; [exact HinE2|].
        split; [destruct ex; [intros x []|intros x [<-|[]]; reflexivity]|].
        intros Hno HnE Hd. assert (ex = false); [|subst ex; rewrite H; left; reflexivity].
        unfold ex. apply not_true_iff_false. intros Hex. apply existsb_exists in Hex as ([p q] & Hin & Hp). cbn [fst] in Hp.
        destruct p as [| |d|a]; try discriminate. apply Nat.eqb_eq in Hp. subst a. apply in_app_iff in Hin as [Hin|Hin].
        - destruct (Hd _ _ Hin) as [d ->]. exact (HnE d Hin).
        - apply HinE2 in Hin as [(a & Ea & _ & Hab)|(Ea & _)]; [|discriminate]. injection Ea as <-. exact (Hno b Hab). }
      destruct KF as (E1 & N1 & -> & H1 & H2 & H3). destruct (IH (E0 ++ E1) (N0 ++ N1)) as (E2 & N2 & -> & J1 & J2 & J3).
      exists (E1 ++ E2), (N1 ++ N2). rewrite !app_assoc. split; [reflexivity|]. split; [|split].
      + intros p q. rewrite in_app_iff, H1, J1. split.
        * intros [[(a & -> & -> & Ha)|(-> & -> & Hno)]|[(a & d & -> & -> & Hd & Ha)|(d & -> & -> & Hd & Hno)]].
          -- left. exists a, b. simpl. auto.
          -- right. exists b. simpl. auto.
          -- left. exists a, d. simpl. auto.
          -- right. exists d. simpl. auto.
        * intros [(a & d & -> & -> & [<-|Hd] & Ha)|(d & -> & -> & [<-|Hd] & Hno)]; [left; left|right; left|left; right|right; right]; eauto 8.
      + intros x Hx. apply in_app_iff in Hx as [Hx|Hx]; [left; symmetry; apply H2, Hx|right; apply J2, Hx].
      + intros x [<-|Hx] Hno HnE Hd; apply in_app_iff; [left; apply H3; assumption|right].
        apply J3; [exact Hx|exact Hno| |].
        * intros d Hin. apply in_app_iff in Hin as [Hin|Hin]; [exact (HnE d Hin)|]. apply H1 in Hin as [(a & Ea & Eq & Ha)|(Ea & _)]; [|discriminate].
          injection Ea as <-. exact (Hno _ Ha).
        * intros p q Hin. apply in_app_iff in Hin as [Hin|Hin]; [eauto|]. apply H1 in Hin as [(a & _ & -> & _)|(_ & -> & _)]; eauto. }
  destruct (K nodes [] []) as (E1 & N1 & EF & H1 & H2 & H3). cbn [app] in EF.
  change (fold_left F nodes ([], [])) with (fold_left F nodes ([], [])) in EF. rewrite EF. clear K EF.
  split; [|split; [|split]].
  - intros a b. rewrite in_app_iff, H1, in_map_iff. split.
    + intros [[(a' & b' & Ea & Eb & _ & Hab)|(b' & Ea & _)]|(b' & Eb & _)]; [|discriminate|discriminate]. injection Ea as <-. injection Eb as <-. exact Hab.
    + intros Hab. left. left. exists a, b. repeat split; try exact Hab. apply (He a b Hab).
  - intros b. rewrite in_app_iff, H1, in_map_iff. split.
    + intros [[(a' & b' & Ea & _)|(b' & _ & Eb & Hb & Hno)]|(b' & Eb & _)]; [discriminate| |discriminate]. injection Eb as <-. auto.
    + intros [Hb Hno]. left. right. exists b. auto.
  - intros b Hb Hno. apply in_app_iff. right. apply in_map_iff. exists b. split; [reflexivity|]. apply H3; [exact Hb|exact Hno|intros d []|intros p q []].
  - intros p q Hin. apply in_app_iff in Hin as [Hin|Hin].
    + apply H1 in Hin as [(a & b & -> & -> & _ & Hab)|(b & -> & -> & Hb & _)].
      * left. exists a, b. repeat split; apply (He a b Hab).
      * right. left. eauto.
    + apply in_map_iff in Hin as (b & Eb & Hb). injection Eb as <- <-. right. right. eauto.
Qed.
Print Assumptions to_work_graph_correct.

(** ** The auction *)
Section Auction.
  Variables (T S : Type).
  Variable offer : nat -> bool -> T -> nat -> Z -> option (offer_t T S).
  Local Open Scope Z_scope.

  Lemma offers_from_spec : forall agents i wg p l, offers_from offer i agents wg p = Some l ->
    (forall j o, In (j, o) l <-> exists k a, j = (i + k)%nat /\ nth_error agents k = Some a /\ offer j false (ag_timeline a) wg p = Some o) /\
    map fst l = seq i (length agents).
  Proof.
    induction agents as [|a agents IH]; intros i wg p l; cbn [offers_from].
    - intros [= <-]. split; [|reflexivity]. intros j o. split; [intros []|]. intros (k & a & _ & Hn & _). destruct k; discriminate.
    - destruct (offer i false (ag_timeline a) wg p) as [o|] eqn:Eo; [|discriminate].
      destruct (offers_from offer (Datatypes.S i) agents wg p) as [l'|] eqn:El; [|discriminate]. intros [= <-].
      destruct (IH _ _ _ _ El) as [A B]. split; [|cbn [map fst length seq]; rewrite B; reflexivity].
      intros j o'. split.
      + intros [[= <- <-]|Hin]; [exists 0%nat, a; rewrite Nat.add_0_r; auto|].
        apply A in Hin as (k & a' & -> & Hn & Ho). exists (Datatypes.S k), a'. split; [lia|]. auto.
      + intros (k & a' & -> & Hn & Ho). destruct k as [|k].
        * rewrite Nat.add_0_r in *. cbn [nth_error] in Hn. injection Hn as <-. left. congruence.
        * right. apply A. exists k, a'. split; [lia|]. auto.
  Qed.
  Lemma best_offer_spec : forall (l : list (nat * offer_t T S)) be best,
    match best_offer l be best with
    | Some b => (best = Some b /\ forall i o, In (i, o) l -> be <= of_end o) \/
                (exists l1 o l2, l = l1 ++ (b, o) :: l2 /\ of_end o < be /\
                   (forall i o', In (i, o') l1 -> of_end o < of_end o') /\ (forall i o', In (i, o') l2 -> of_end o <= of_end o'))
    | None => best = None /\ forall i o, In (i, o) l -> be <= of_end o
    end.
  Proof.
    induction l as [|[i o] l IH]; intros be best; cbn [best_offer].
    - destruct best; [left|]; split; try reflexivity; intros i o [].
    - unfold tlt. destruct (Z.ltb_spec (of_end o) be) as [Hlt|Hge].
      + specialize (IH (of_end o) (Some i)). destruct (best_offer l (of_end o) (Some i)) as [b|]; [right|destruct IH; discriminate].
        destruct IH as [[[= <-] IH]|(l1 & o1 & l2 & -> & H1 & H2 & H3)].
        * exists [], o, l. split; [reflexivity|]. split; [exact Hlt|]. split; [intros ? ? []|exact IH].
        * exists ((i, o) :: l1), o1, l2. split; [reflexivity|]. split; [lia|]. split; [|exact H3].
          intros j o' [[= <- <-]|Hin]; [exact H1|eauto].
      + specialize (IH be best). destruct (best_offer l be best) as [b|].
        * destruct IH as [[-> IH]|(l1 & o1 & l2 & -> & H1 & H2 & H3)]; [left; split; [reflexivity|]; intros j o' [[= <- <-]|Hin]; [lia|eauto]|right].
          exists ((i, o) :: l1), o1, l2. split; [reflexivity|]. split; [exact H1|]. split; [|exact H3].
          intros j o' [[= <- <-]|Hin]; [lia|eauto].
        * destruct IH as [-> IH]. split; [reflexivity|]. intros j o' [[= <- <-]|Hin]; [lia|eauto].
  Qed.
  Lemma set_nth_length {A} : forall (l : list A) i x, length (set_nth l i x) = length l.
  Proof. induction l as [|y l IH]; intros [|i] x; simpl; try reflexivity. rewrite IH. reflexivity. Qed.
  Lemma set_nth_get {A} : forall (l : list A) i j x, nth_error (set_nth l i x) j =
    if Nat.eqb j i then match nth_error l j with Some _ => Some x | None => None end else nth_error l j.
  Proof.
    induction l as [|y l IH]; intros [|i] [|j] x; simpl; try reflexivity.
    - destruct (Nat.eqb j i); reflexivity.
    - apply IH.
  Qed.

  (** C35. The winner is the first of the agents with the earliest end; its repeated offer
      is confirmed: the agent gets the timeline and the end of the offer. The other agents
      keep theirs. The idle time before the start is added to the statistics of the winner
      and of the agents with other names. *)
  Theorem auction_correct agents wg p o b agents' :
    run_auction offer agents wg p = Some (o, b, agents') ->
    exists a first,
      nth_error agents b = Some a /\ offer b false (ag_timeline a) wg p = Some first /\ of_end first < TIME_INF /\
      (forall i ai, nth_error agents i = Some ai -> exists oi, offer i false (ag_timeline ai) wg p = Some oi /\
         of_end first <= of_end oi /\ ((i < b)%nat -> of_end first < of_end oi)) /\
      offer b true (ag_timeline a) wg p = Some o /\
      length agents' = length agents /\
      (forall i ai, nth_error agents i = Some ai -> exists ai', nth_error agents' i = Some ai' /\
         ag_name ai' = ag_name ai /\
         ag_timeline ai' = (if Nat.eqb i b then of_timeline o else ag_timeline ai) /\
         ag_last ai' = (if Nat.eqb i b then of_end o else ag_last ai) /\
         ag_downtime ai' = (if Nat.eqb i b || negb (Nat.eqb (ag_name ai) (ag_name a))
                            then tadd (ag_downtime ai) (Z.max 0 (tsub (of_start o) (ag_last ai))) else ag_downtime ai)).
  Proof.
    unfold run_auction. destruct (offers_from offer 0 agents wg p) as [l|] eqn:El; [|discriminate].
    destruct (offers_from_spec _ _ _ _ _ El) as [A B].
    assert (Bs := best_offer_spec l TIME_INF None). destruct (best_offer l TIME_INF None) as [b0|]; [|discriminate].
    destruct Bs as [[Hc _]|(l1 & first & l2 & El' & Hinf & Hb & Ha)]; [discriminate|].
    assert (Hin : In (b0, first) l) by (rewrite El'; apply in_app_iff; right; left; reflexivity).
    apply A in Hin as (k & a & Ek & Hk & Hof). cbn [Nat.add] in Ek. subst k. rewrite Hk.
    destruct (offer b0 true (ag_timeline a) wg p) as [o'|] eqn:Eo; [|discriminate]. intros [= <- <- <-].
    exists a, first. split; [exact Hk|]. split; [exact Hof|]. split; [exact Hinf|]. split.
    - intros i ai Hi.
      assert (Hex : exists oi, In (i, oi) l).
      { assert (Hii : In i (map fst l)) by (rewrite B; apply in_seq; split; [lia|]; apply nth_error_Some; rewrite Hi; discriminate).
        apply in_map_iff in Hii as ([i' oi] & <- & Hii). exists oi. exact Hii. }
      destruct Hex as [oi Hoi]. exists oi. assert (Hoi' := Hoi). apply A in Hoi as (k & a' & Ek & Hk' & Ho). cbn [Nat.add] in Ek. subst k.
      assert (a' = ai) by congruence. subst a'. split; [exact Ho|].
      rewrite El' in Hoi'. apply in_app_iff in Hoi' as [H|[H|H]].
      + specialize (Hb _ _ H). split; [lia|intros; exact Hb].
      + injection H as <- <-. split; [lia|lia].
      + split; [eapply Ha; eauto|]. intros Hlt. exfalso.
        (* positions increase along the list of offers *)
        assert (Hs : map fst l1 ++ b0 :: map fst l2 = seq 0 (length agents)) by (rewrite <- B, El', map_app; reflexivity).
        assert (Hl1 : length (map fst l1) = b0).
        { assert (N := f_equal (fun s => nth_error s (length (map fst l1))) Hs). cbn beta in N.
          rewrite nth_error_app2, Nat.sub_diag in N by lia. cbn [nth_error] in N.
          assert (Hlen : (length (map fst l1) < length agents)%nat).
          { rewrite <- (seq_length (length agents) 0), <- Hs, app_length. simpl. lia. }
          rewrite (nth_error_nth' _ 0%nat) in N by (rewrite seq_length; exact Hlen). rewrite seq_nth in N by exact Hlen. injection N as N. lia. }
        assert (Hi2 : In i (map fst l2)) by (apply in_map_iff; exists (i, oi); auto).
        apply In_nth_error in Hi2 as [q Hq].
        assert (N := f_equal (fun s => nth_error s (Datatypes.S b0 + q)%nat) Hs). cbn beta in N.
        rewrite nth_error_app2 in N by lia. rewrite Hl1 in N. replace (Datatypes.S b0 + q - b0)%nat with (Datatypes.S q) in N by lia.
        cbn [nth_error] in N. rewrite Hq in N. symmetry in N.
        assert (Hlen : (Datatypes.S b0 + q < length agents)%nat) by (rewrite <- (seq_length (length agents) 0); apply nth_error_Some; rewrite N; discriminate).
        rewrite (nth_error_nth' _ 0%nat) in N by (rewrite seq_length; exact Hlen). rewrite seq_nth in N by exact Hlen. injection N as N. lia.
    - split; [exact Eo|]. split; [rewrite map_length, set_nth_length; reflexivity|].
      intros i ai Hi. rewrite nth_error_map, set_nth_get, Hi.
      assert (Hm : forall x y, tmax x y = Z.max x y) by (intros x y; unfold tmax; destruct (Z.ltb_spec x y); lia).
      destruct (Nat.eqb_spec i b0) as [->|Hne]; cbn [option_map].
      + assert (ai = a) by congruence. subst ai. eexists. split; [reflexivity|].
        unfold confirm, update_stat. cbn [ag_name ag_timeline ag_last ag_downtime]. rewrite Nat.eqb_refl. cbn [ag_name ag_timeline ag_last ag_downtime orb].
        rewrite <- Hm. auto.
      + eexists. split; [reflexivity|]. cbn [orb]. destruct (Nat.eqb (ag_name ai) (ag_name a)); cbn [negb update_stat ag_name ag_timeline ag_last ag_downtime];
          [auto|rewrite <- Hm; auto].
  Qed.

  (** The auction takes place if all agents offer, one of them an end before infinity, and
      the winner's second request succeeds. *)
  Theorem auction_answers agents wg p :
    (forall i a, nth_error agents i = Some a -> exists o, offer i false (ag_timeline a) wg p = Some o /\ offer i true (ag_timeline a) wg p <> None) ->
    (exists i a o, nth_error agents i = Some a /\ offer i false (ag_timeline a) wg p = Some o /\ of_end o < TIME_INF) ->
    exists r, run_auction offer agents wg p = Some r.
  Proof.
    intros Hall (i0 & a0 & o0 & Hi0 & Ho0 & Hlt). unfold run_auction.
    assert (K : forall l i, (forall k a, nth_error l k = Some a -> exists o, offer (i + k)%nat false (ag_timeline a) wg p = Some o) -> exists r, offers_from offer i l wg p = Some r).
    { induction l as [|a l IH]; intros i H; cbn [offers_from]; [eauto|].
      destruct (H 0%nat a eq_refl) as [o Ho]. rewrite Nat.add_0_r in Ho. rewrite Ho.
      destruct (IH (Datatypes.S i)) as [r Hr]; [|rewrite Hr; eauto]. intros k a' Hk. replace (Datatypes.S i + k)%nat with (i + Datatypes.S k)%nat by lia. apply H. exact Hk. }
    destruct (K agents 0%nat) as [l El]; [intros k a Hk; destruct (Hall k a Hk) as (o & Ho & _); eauto|]. rewrite El.
    destruct (offers_from_spec _ _ _ _ _ El) as [A B].
    assert (Bs := best_offer_spec l TIME_INF None). destruct (best_offer l TIME_INF None) as [b0|].
    - destruct Bs as [[Hc _]|(l1 & first & l2 & El' & _)]; [discriminate|].
      assert (Hin : In (b0, first) l) by (rewrite El'; apply in_app_iff; right; left; reflexivity).
      apply A in Hin as (k & a & Ek & Hk & Hof). cbn [Nat.add] in Ek. subst k. rewrite Hk.
      destruct (Hall b0 a Hk) as (_ & _ & Hs). destruct (offer b0 true (ag_timeline a) wg p); [eauto|contradiction].
    - exfalso. destruct Bs as [_ Bs]. specialize (Bs i0 o0). assert (TIME_INF <= of_end o0); [|lia]. apply Bs. apply A. exists i0, a0. auto.
  Qed.
End Auction.
Print Assumptions auction_correct.
Print Assumptions auction_answers.

(** ** The management of blocks *)
Section Manage.
  Variables (T S : Type).
  Variable offer : nat -> bool -> T -> nat -> Z -> option (offer_t T S).
  Variable edges : list (nat * nat).
  Local Open Scope Z_scope.

  (** The blocks are auctioned one after the other, each after its predecessors, with the
      parent time one more than the latest end of these (than 0 if there are none). *)
  Inductive history (agents : list (agent T)) : list (sblock S) -> list (agent T) -> Prop :=
  | h_start : history agents [] agents
  | h_block done agents1 b m o i agents2 :
      history agents done agents1 ->
      (forall a, edge_of edges a b -> exists s, In s done /\ sb_block s = a) ->
      (forall s, In s done -> edge_of edges (sb_block s) b -> sb_end s <= m) ->
      (m = 0 /\ (forall a, ~ edge_of edges a b) \/ exists s, In s done /\ edge_of edges (sb_block s) b /\ sb_end s = m) ->
      run_auction offer agents1 b (tadd m 1) = Some (o, i, agents2) ->
      tadd m 1 <= of_start o ->
      history agents (done ++ [Sb b (of_start o) (of_end o) (of_schedule o) i]) agents2.

  Lemma find_sblock_some (l : list (sblock S)) b s : find_sblock l b = Some s -> In s l /\ sb_block s = b.
  Proof. unfold find_sblock. intros H. apply find_some in H as [H1 H2]. apply in_rev in H1. apply Nat.eqb_eq in H2. auto. Qed.
  Lemma nodup_map_inj (l : list (sblock S)) s s' : NoDup (map sb_block l) -> In s l -> In s' l -> sb_block s = sb_block s' -> s = s'.
  Proof.
    induction l as [|x l IH]; intros Hnd Hs Hs' He; [destruct Hs|]. cbn [map] in Hnd. inversion Hnd as [|? ? N1 N2]; subst.
    destruct Hs as [<-|Hs], Hs' as [<-|Hs']; auto.
    - exfalso. apply N1. rewrite He. apply in_map. exact Hs'.
    - exfalso. apply N1. rewrite <- He. apply in_map. exact Hs.
  Qed.
  Lemma find_sblock_in (l : list (sblock S)) s : NoDup (map sb_block l) -> In s l -> find_sblock l (sb_block s) = Some s.
  Proof.
    intros Hnd Hs. unfold find_sblock. destruct (find _ (rev l)) as [s'|] eqn:E.
    - apply find_some in E as [H1 H2]. apply Nat.eqb_eq in H2. apply in_rev in H1. f_equal. eapply nodup_map_inj; eauto.
    - exfalso. apply in_rev in Hs. assert (A := find_none _ _ E s Hs). cbn beta in A. rewrite Nat.eqb_refl in A. discriminate.
  Qed.
  Lemma parent_ends_spec (done : list (sblock S)) : NoDup (map sb_block done) -> forall ps ends, parent_ends done ps = Some ends ->
    (forall p, In p ps -> exists s, In s done /\ sb_block s = p /\ In (sb_end s) ends) /\
    (forall e, In e ends -> exists s, In s done /\ In (sb_block s) ps /\ sb_end s = e) /\ (ps = [] <-> ends = []).
  Proof.
    intros Hnd. induction ps as [|p ps IH]; intros ends; cbn [parent_ends].
    - intros [= <-]. split; [intros p []|]. split; [intros e []|tauto].
    - destruct (find_sblock done p) as [s|] eqn:Es; [|discriminate]. destruct (parent_ends done ps) as [l|]; [|discriminate].
      intros [= <-]. destruct (IH l eq_refl) as (A & B & _). apply find_sblock_some in Es as [H1 H2]. split; [|split].
      + intros q [<-|Hq]; [exists s; repeat split; auto; left; reflexivity|]. destruct (A q Hq) as (s' & X & Y & Z0). exists s'. repeat split; auto. right. exact Z0.
      + intros e [<-|He]; [exists s; repeat split; auto; left; symmetry; exact H2|]. destruct (B e He) as (s' & X & Y & Z0). exists s'. repeat split; auto. right. exact Y.
      + split; discriminate.
  Qed.
  Lemma max_default_spec l : (forall x, In x l -> x <= max_default l) /\ (l = [] /\ max_default l = 0 \/ In (max_default l) l).
  Proof.
    destruct l as [|x l]; [split; [intros x []|left; auto]|]. cbn [max_default].
    assert (K : forall l x, x <= fold_left tmax l x /\ (forall y, In y l -> y <= fold_left tmax l x) /\ (fold_left tmax l x = x \/ In (fold_left tmax l x) l)).
    { induction l0 as [|y l0 IH]; intros z; cbn [fold_left]; [split; [lia|split; [intros y []|left; reflexivity]]|].
      destruct (IH (tmax z y)) as (A & B & C). assert (Hm : tmax z y = Z.max z y) by (unfold tmax; destruct (Z.ltb_spec z y); lia).
      split; [lia|]. split; [intros w [<-|Hw]; [lia|apply B, Hw]|].
      destruct C as [C|C]; [|right; right; exact C]. rewrite C, Hm. destruct (Z.max_spec z y) as [[_ ->]|[_ ->]]; [right; left; reflexivity|left; reflexivity]. }
    destruct (K l x) as (A & B & C). split; [intros y [<-|Hy]; [exact A|apply B, Hy]|]. right. destruct C as [->|C]; [left; reflexivity|right; exact C].
  Qed.

  Section Run.
    Variable nodes : list nat.
    Let bg := block_graph_of nodes edges.
    Lemma manage_loop_spec : forall order agents0 agents done done' agents',
      NoDup (map sb_block done ++ order) -> history agents0 done agents ->
      manage_loop offer bg order agents done = Some (done', agents') ->
      history agents0 done' agents' /\ map sb_block done' = map sb_block done ++ order.
    Proof.
      destruct (block_graph_edges nodes edges) as (_ & _ & HF). fold bg in HF.
      induction order as [|b order IH]; intros agents0 agents done done' agents' Hnd Hh; cbn [manage_loop].
      - intros [= <- <-]. rewrite app_nil_r. auto.
      - destruct (parent_ends done (bg_from bg b)) as [ends|] eqn:Ee; [|discriminate].
        destruct (run_auction offer agents b (tadd (max_default ends) 1)) as [[[o i] agents2]|] eqn:Er; [|discriminate].
        destruct (tge (of_start o) (tadd (max_default ends) 1)) eqn:Eg; [|discriminate]. unfold tge in Eg. apply Z.leb_le in Eg. intros H.
        assert (Hnd1 : NoDup (map sb_block done)) by (clear - Hnd; induction (map sb_block done) as [|x l IH]; [constructor|cbn [app] in Hnd; inversion Hnd as [|? ? N1 N2]; subst; constructor; [intros Hx; apply N1, in_app_iff; left; exact Hx|apply IH, N2]]).
        destruct (parent_ends_spec done Hnd1 _ _ Ee) as (P1 & P2 & P3). destruct (max_default_spec ends) as (M1 & M2).
        apply IH with (agents0 := agents0) in H.
        + destruct H as [H1 H2]. split; [exact H1|]. rewrite H2, map_app, <- app_assoc. reflexivity.
        + rewrite map_app, <- app_assoc. exact Hnd.
        + eapply h_block; [exact Hh| | | |exact Er|exact Eg].
          * intros a Ha. apply HF in Ha. destruct (P1 a Ha) as (s & X & Y & _). eauto.
          * intros s Hs He. apply HF in He. destruct (P1 _ He) as (s' & X & Y & Z0). rewrite (nodup_map_inj done s s' Hnd1 Hs X (eq_sym Y)). apply M1, Z0.
          * destruct M2 as [[M2 M3]|M2]; [left|right].
            -- split; [exact M3|]. intros a Ha. apply HF in Ha. apply P3 in M2. rewrite M2 in Ha. destruct Ha.
            -- destruct (P2 _ M2) as (s & X & Y & Z0). exists s. repeat split; auto. apply HF, Y.
    Qed.
  End Run.

  (** Facts about histories. *)
  Lemma history_edges agents done agents' : history agents done agents' -> NoDup (map sb_block done) ->
    forall sa sb, In sa done -> In sb done -> edge_of edges (sb_block sa) (sb_block sb) ->
      tadd (sb_end sa) 1 <= sb_start sb /\ comes_before (map sb_block done) (sb_block sa) (sb_block sb).
  Proof.
    induction 1 as [|done agents1 b m o i agents2 Hh IH Hp Hm1 Hm2 Hr Hs]; intros Hnd sa sb Ha Hb He; [destruct Ha|].
    rewrite map_app in Hnd |- *. cbn [map sb_block] in Hnd |- *.
    assert (Hnd1 : NoDup (map sb_block done)) by (apply NoDup_remove_1 in Hnd; rewrite app_nil_r in Hnd; exact Hnd).
    assert (Hb' : ~ In b (map sb_block done)) by (apply NoDup_remove_2 in Hnd; rewrite app_nil_r in Hnd; exact Hnd).
    apply in_app_iff in Hb as [Hb|[<-|[]]].
    - apply in_app_iff in Ha as [Ha|[<-|[]]].
      + destruct (IH Hnd1 sa sb Ha Hb He). split; [assumption|apply comes_before_app_l; assumption].
      + exfalso. (* the predecessor of an earlier block was done before *)
        cbn [sb_block] in He. clear - Hh Hb He Hb' .
        induction Hh as [|done agents1 b1 m o i agents2 Hh IH Hp Hm1 Hm2 Hr Hs]; [destruct Hb|].
        apply in_app_iff in Hb as [Hb|[<-|[]]].
        * apply IH; [exact Hb|]. intros Hin. apply Hb'. rewrite map_app. apply in_app_iff. left. exact Hin.
        * cbn [sb_block] in He. destruct (Hp _ He) as (s & X & Y). apply Hb'. rewrite map_app. apply in_app_iff. left. rewrite <- Y. apply in_map, X.
    - cbn [sb_block sb_start] in *. apply in_app_iff in Ha as [Ha|[<-|[]]].
      + split; [|apply comes_before_app_lr; [apply in_map, Ha|left; reflexivity]].
        specialize (Hm1 sa Ha He). unfold tadd in *. assert (set_time (sb_end sa + 1) <= set_time (m + 1)) by (inf; destruct (set_time_cases (sb_end sa + 1)) as [[A1 A2]|[[A1 A2]|[A1 A2]]], (set_time_cases (m + 1)) as [[B1 B2]|[[B1 B2]|[B1 B2]]]; lia). lia.
      + exfalso. cbn [sb_block] in He. destruct (Hp _ He) as (s & X & Y). apply Hb'. rewrite <- Y. apply in_map, X.
  Qed.
  Lemma history_ends agents done agents' : history agents done agents' ->
    (forall i t w p, offer i true t w p = offer i false t w p) -> forall s, In s done -> sb_end s < TIME_INF.
  Proof.
    intros Hh Hdet. induction Hh as [|done agents1 b m o i agents2 Hh IH Hp Hm1 Hm2 Hr Hs]; intros s Hin; [destruct Hin|].
    apply in_app_iff in Hin as [Hin|[<-|[]]]; [auto|]. cbn [sb_end].
    destruct (auction_correct _ _ _ _ _ _ _ _ _ Hr) as (a & first & _ & Hf & Hi & _ & Hs' & _). rewrite Hdet in Hs'. congruence.
  Qed.
End Manage.

(** C36. Whatever the agents' schedulers are: every block is scheduled exactly once, by
    auctions one after the other; a block starts later than its predecessors end; this is
    possible only if the graph has no cycle. *)
Theorem manage_blocks_correct T S offer (agents agents' : list (agent T)) nodes edges (done : list (sblock S)) :
  NoDup nodes -> (forall a b, edge_of edges a b -> In a nodes /\ In b nodes) ->
  manage_blocks offer agents (block_graph_of nodes edges) = Some (done, agents') ->
  Permutation (map sb_block done) nodes /\
  history T S offer edges agents done agents' /\
  acyclic (edge_of edges) /\
  (forall sa sb, In sa done -> In sb done -> edge_of edges (sb_block sa) (sb_block sb) ->
     (tadd (sb_end sa) 1 <= sb_start sb)%Z /\
     ((forall i t w p, offer i true t w p = offer i false t w p) -> (- TIME_INF < sb_end sa)%Z -> (sb_end sa < sb_start sb)%Z)).
Proof.
  intros Hnd He. unfold manage_blocks. destruct agents as [|a0 agents0] eqn:Ea; [discriminate|]. rewrite <- Ea. clear a0 agents0 Ea.
  destruct (block_toposort_correct nodes edges Hnd He) as (order & -> & Hperm & _). intros H.
  assert (Hndo : NoDup order) by (eapply Permutation_NoDup; [apply Permutation_sym; exact Hperm|exact Hnd]).
  destruct (manage_loop_spec T S offer edges nodes order agents agents [] done agents' Hndo (h_start _ _ _ _ _) H) as [Hh Hm].
  cbn [map app] in Hm.
  assert (Hedges : forall sa sb, In sa done -> In sb done -> edge_of edges (sb_block sa) (sb_block sb) ->
      (tadd (sb_end sa) 1 <= sb_start sb)%Z /\ comes_before (map sb_block done) (sb_block sa) (sb_block sb)).
  { intros sa sb. apply (history_edges T S offer edges agents done agents' Hh). rewrite Hm. exact Hndo. }
  split; [rewrite Hm; exact Hperm|]. split; [exact Hh|]. split.
  - apply (topological_acyclic _ (map sb_block done)); [rewrite Hm; exact Hndo| |].
    + intros x y Hxy Hx Hy. apply in_map_iff in Hx as (sx & <- & Hx). apply in_map_iff in Hy as (sy & <- & Hy). apply (Hedges sx sy Hx Hy Hxy).
    + intros x y Hxy. rewrite Hm. destruct (He x y Hxy) as [Hx Hy]. split; eapply Permutation_in; try exact Hx; try exact Hy; apply Permutation_sym; exact Hperm.
  - intros sa sb Ha Hb Hab. destruct (Hedges sa sb Ha Hb Hab) as [Hle _]. split; [exact Hle|]. intros Hdet Hlow.
    assert (Hi := history_ends T S offer edges agents done agents' Hh Hdet sa Ha).
    unfold tadd, set_time in Hle. destruct (Z.ltb_spec TIME_INF (sb_end sa + 1)); [lia|]. destruct (Z.ltb_spec (sb_end sa + 1) (- TIME_INF)); lia.
Qed.
Print Assumptions manage_blocks_correct.

(** The same as the theorem below, with a condition on timelines that can depend on the agent,
    for times up to [U]. *)
Lemma manage_blocks_total_for T S offer (free : nat -> T -> Z -> Prop) (D U : Z) (agents : list (agent T)) nodes edges :
  (forall i t h h', free i t h -> (h <= h')%Z -> free i t h') ->
  (forall i again t w p h, (i < length agents)%nat -> In w nodes -> free i t h -> (0 <= p <= h)%Z -> (h + D <= U)%Z -> exists o : offer_t T S, offer i again t w p = Some o /\
     (p <= of_start o)%Z /\ (of_start o <= of_end o <= h + D)%Z /\ free i (of_timeline o) (h + D)%Z) ->
  agents <> [] -> (forall i a, nth_error agents i = Some a -> free i (ag_timeline a) 1%Z) -> (0 <= D)%Z ->
  (Z.of_nat (length nodes) * (D + 1) + 1 <= U)%Z -> (U < TIME_INF)%Z ->
  NoDup nodes -> (forall a b, edge_of edges a b -> In a nodes /\ In b nodes) -> acyclic (edge_of edges) ->
  exists done agents', manage_blocks offer agents (block_graph_of nodes edges) = Some (done, agents').
Proof.
  intros Hmono Hoff Hag Hfree HD Hinf HTI Hnd He Hac. unfold manage_blocks.
  destruct agents as [|a0 agents0] eqn:Ea; [contradiction|]. rewrite <- Ea in *. clear Hag.
  assert (Hne : agents <> []) by (rewrite Ea; discriminate). clear a0 agents0 Ea.
  destruct (block_toposort_correct nodes edges Hnd He) as (order & -> & Hperm & Htopo). specialize (Htopo Hac).
  destruct (block_graph_edges nodes edges) as (_ & _ & HF). set (bg := block_graph_of nodes edges) in *.
  assert (K : forall rest pre ags done, order = pre ++ rest -> map sb_block done = pre -> ags <> [] -> length ags = length agents ->
     (forall s, In s done -> (0 <= sb_end s <= Z.of_nat (length pre) * (D + 1))%Z) ->
     (forall i a, nth_error ags i = Some a -> free i (ag_timeline a) (Z.of_nat (length pre) * (D + 1) + 1)%Z) ->
     exists done' agents', manage_loop offer bg rest ags done = Some (done', agents')).
  { induction rest as [|b rest IH]; intros pre ags done Ho Hd Hne' Hla Hends Hfr; cbn [manage_loop]; [eauto|].
    assert (Hndo : NoDup order) by (eapply Permutation_NoDup; [apply Permutation_sym; exact Hperm|exact Hnd]).
    assert (Hpar : forall p, In p (bg_from bg b) -> In p pre).
    { intros p Hp. apply HF in Hp. destruct (He p b Hp) as [Hp1 Hb1].
      assert (Hc : comes_before order p b) by (apply Htopo; [exact Hp| |]; (eapply Permutation_in; [apply Permutation_sym; exact Hperm|assumption])).
      apply comes_before_pos in Hc; [|exact Hndo]. destruct Hc as (_ & _ & Hlt). rewrite Ho in Hlt. rewrite !pos_app in Hlt.
      assert (Hnb : ~ In b pre) by (rewrite Ho in Hndo; apply NoDup_remove_2 in Hndo; intros Hin; apply Hndo, in_app_iff; left; exact Hin).
      apply existsb_nin in Hnb. rewrite Hnb in Hlt. destruct (existsb (Nat.eqb p) pre) eqn:Ep; [apply existsb_in, Ep|].
      cbn [pos] in Hlt. rewrite Nat.eqb_refl in Hlt. lia. }
    assert (Hpe : exists ends, parent_ends done (bg_from bg b) = Some ends /\ forall e, In e ends -> (0 <= e <= Z.of_nat (length pre) * (D + 1))%Z).
    { clear IH. revert Hpar. generalize (bg_from bg b) as ps. induction ps as [|p ps IHp]; intros Hpar; cbn [parent_ends]; [exists []; split; [reflexivity|intros e []]|].
      destruct (find_sblock done p) as [s|] eqn:Ef.
      - destruct IHp as (ends & -> & HH); [intros q Hq; apply Hpar; right; exact Hq|]. exists (sb_end s :: ends). split; [reflexivity|].
        intros e [<-|Hin]; [|auto]. apply Hends. apply find_sblock_some in Ef. apply Ef.
      - exfalso. assert (Hp : In p pre) by (apply Hpar; left; reflexivity). rewrite <- Hd in Hp. apply in_map_iff in Hp as (s & Es & Hs).
        unfold find_sblock in Ef. apply in_rev in Hs. assert (A := find_none _ _ Ef s Hs). cbn beta in A. rewrite Es, Nat.eqb_refl in A. discriminate. }
    destruct Hpe as (ends & -> & Hends'). destruct (max_default_spec ends) as [M1 M2].
    assert (Hlen : (length pre < length nodes)%nat) by (rewrite <- (Permutation_length Hperm), Ho, app_length; simpl; lia).
    assert (Hm : (0 <= max_default ends <= Z.of_nat (length pre) * (D + 1))%Z) by (destruct M2 as [[_ ->]|M2]; [nia|auto]).
    assert (Hlt : (Z.of_nat (length pre) * (D + 1) + D + 1 < TIME_INF)%Z) by nia.
    assert (Hp1 : tadd (max_default ends) 1 = (max_default ends + 1)%Z).
    { unfold tadd, set_time. destruct (Z.ltb_spec TIME_INF (max_default ends + 1)); [lia|]. destruct (Z.ltb_spec (max_default ends + 1) (- TIME_INF)); lia. }
    rewrite Hp1. set (h := (Z.of_nat (length pre) * (D + 1) + 1)%Z) in *.
    assert (Hofs : forall i a again, nth_error ags i = Some a -> exists o, offer i again (ag_timeline a) b (max_default ends + 1)%Z = Some o /\
       (max_default ends + 1 <= of_start o)%Z /\ (of_start o <= of_end o <= h + D)%Z /\ free i (of_timeline o) (h + D)%Z).
    { intros i a again Hn. apply Hoff; [rewrite <- Hla; apply nth_error_Some; congruence|eapply Permutation_in; [exact Hperm|rewrite Ho; apply in_or_app; right; left; reflexivity]|apply Hfr; exact Hn|unfold h; lia|unfold h; nia]. }
    destruct (auction_answers T S offer ags b (max_default ends + 1)%Z) as [[[o i] ags'] Er].
    - intros i a Hn. destruct (Hofs i a false Hn) as (o & Eo & _). destruct (Hofs i a true Hn) as (o' & Eo' & _). exists o. split; [exact Eo|congruence].
    - destruct ags as [|a ags0]; [contradiction|]. destruct (Hofs 0%nat a false eq_refl) as (o & Eo & _ & H2 & _).
      exists 0%nat, a, o. split; [reflexivity|]. split; [exact Eo|]. unfold h in H2. lia.
    - rewrite Er. destruct (auction_correct T S offer _ _ _ _ _ _ Er) as (a & first & Hn & _ & _ & _ & Eo & Hlen' & Hag').
      destruct (Hofs i a true Hn) as (o' & Eo' & H1 & H2 & H3). assert (o' = o) by congruence. subst o'.
      assert (Hge : tge (of_start o) (max_default ends + 1) = true) by (unfold tge; apply Z.leb_le; exact H1). rewrite Hge.
      apply (IH (pre ++ [b])).
      + rewrite <- app_assoc. exact Ho.
      + rewrite map_app, Hd. reflexivity.
      + intros ->. destruct ags; [contradiction|discriminate].
      + congruence.
      + rewrite app_length, Nat2Z.inj_add. cbn [length]. intros s Hs. apply in_app_iff in Hs as [Hs|[<-|[]]]; [specialize (Hends s Hs); nia|].
        cbn [sb_end]. unfold h in H2. nia.
      + rewrite app_length, Nat2Z.inj_add. cbn [length]. intros j x Hj.
        destruct (nth_error ags j) as [aj|] eqn:Ej; [|exfalso; apply nth_error_None in Ej; assert (nth_error ags' j <> None) by congruence; apply nth_error_Some in H; lia].
        destruct (Hag' j aj Ej) as (x' & Hx' & _ & Ht & _). assert (x' = x) by congruence. subst x'. rewrite Ht.
        destruct (Nat.eqb_spec j i) as [->|_]; [eapply Hmono; [exact H3|unfold h; nia]|]. eapply Hmono; [apply Hfr; exact Ej|unfold h; nia]. }
  apply (K order [] agents []); try assumption; try reflexivity. intros s [].
Qed.
(** If a block takes at most [D] on a timeline that is free from then on, all blocks of a
    graph without cycles are scheduled. *)
Theorem manage_blocks_total T S offer (free : T -> Z -> Prop) (D : Z) (agents : list (agent T)) nodes edges :
  (forall t h h', free t h -> (h <= h')%Z -> free t h') ->
  (forall i again t w p h, free t h -> (0 <= p <= h)%Z -> exists o : offer_t T S, offer i again t w p = Some o /\
     (p <= of_start o)%Z /\ (of_start o <= of_end o <= h + D)%Z /\ free (of_timeline o) (h + D)%Z) ->
  agents <> [] -> (forall a, In a agents -> free (ag_timeline a) 1%Z) -> (0 <= D)%Z ->
  (Z.of_nat (length nodes) * (D + 1) + 1 < TIME_INF)%Z ->
  NoDup nodes -> (forall a b, edge_of edges a b -> In a nodes /\ In b nodes) -> acyclic (edge_of edges) ->
  exists done agents', manage_blocks offer agents (block_graph_of nodes edges) = Some (done, agents').
Proof.
  intros Hmono Hoff Hag Hfree HD Hinf. apply (manage_blocks_total_for T S offer (fun _ => free) D (TIME_INF - 1)); try assumption; try lia.
  - intros _. apply Hmono.
  - intros i again t w p h _ _ Hf Hp _. apply Hoff; assumption.
  - intros i a Ha. apply Hfree. eapply nth_error_In. exact Ha.
Qed.
Print Assumptions manage_blocks_total.

(** ** Validation of the blocks *)
(** The check of the dependencies accepts exactly the schedules in which a block starts no
    earlier than its predecessors end and no block of a dependency ends before it starts. *)
Theorem block_check_exact S nodes edges (done : list (sblock S)) :
  NoDup (map sb_block done) -> (forall s a, In s done -> edge_of edges a (sb_block s) -> In a (map sb_block done)) ->
  exists r, check_block_dependencies (block_graph_of nodes edges) done = Some r /\
    (r = true <-> forall sa sb, In sa done -> In sb done -> edge_of edges (sb_block sa) (sb_block sb) ->
       (sb_start sa <= sb_end sa <= sb_start sb)%Z /\ (sb_start sb <= sb_end sb)%Z).
Proof.
  intros Hnd Hcl. destruct (block_graph_edges nodes edges) as (_ & _ & HF). unfold check_block_dependencies.
  set (bg := block_graph_of nodes edges) in *.
  set (okp := fun (sa sb : sblock S) => (sb_start sa <= sb_end sa <= sb_start sb)%Z /\ (sb_start sb <= sb_end sb)%Z).
  set (G := fun (s : sblock S) (acc : option bool) p => match acc with
        | Some true => match find_sblock done p with None => None | Some ps => Some (tle (sb_start ps) (sb_end ps) && tle (sb_end ps) (sb_start s) && tle (sb_start s) (sb_end s)) end
        | _ => acc end).
  assert (K1 : forall s ps r0, (forall p, In p ps -> In p (map sb_block done)) ->
     exists r, fold_left (G s) ps (Some r0) = Some r /\ (r = true <-> r0 = true /\ forall sa, In sa done -> In (sb_block sa) ps -> okp sa s)).
  { intros s. induction ps as [|p ps IH]; intros r0 Hps; cbn [fold_left].
    - exists r0. split; [reflexivity|]. split; [intros H; split; [exact H|intros sa _ []]|tauto].
    - assert (Hp := Hps p (or_introl eq_refl)). apply in_map_iff in Hp as (sp & Esp & Hsp).
      assert (Hstep : exists r1, G s (Some r0) p = Some r1 /\ (r1 = true <-> r0 = true /\ okp sp s)).
      { unfold G. destruct r0; [|exists false; split; [reflexivity|]; split; [discriminate|intros [H _]; discriminate]].
        rewrite <- Esp, (find_sblock_in S done sp Hnd Hsp). eexists. split; [reflexivity|]. unfold tle, okp. rewrite !andb_true_iff, !Z.leb_le. intuition lia. }
      destruct Hstep as (r1 & -> & Hr1). destruct (IH r1 (fun q Hq => Hps q (or_intror Hq))) as (r & -> & Hr). exists r. split; [reflexivity|].
      rewrite Hr, Hr1. split.
      + intros [[H1 H2] H3]. split; [exact H1|]. intros sa Hsa [Hq|Hq]; [|auto].
        rewrite (nodup_map_inj S done sa sp Hnd Hsa Hsp); [exact H2|congruence].
      + intros [H1 H2]. split; [split; [exact H1|apply H2; [exact Hsp|left; symmetry; exact Esp]]|]. intros sa Hsa Hq. apply H2; [exact Hsa|right; exact Hq]. }
  assert (K2 : forall l r0, incl l done -> exists r, fold_left (fun acc s => fold_left (G s) (bg_from bg (sb_block s)) acc) l (Some r0) = Some r /\
     (r = true <-> r0 = true /\ forall sa sb, In sa done -> In sb l -> edge_of edges (sb_block sa) (sb_block sb) -> okp sa sb)).
  { induction l as [|s l IH]; intros r0 Hl; cbn [fold_left].
    - exists r0. split; [reflexivity|]. split; [intros H; split; [exact H|intros sa sb _ []]|tauto].
    - destruct (K1 s (bg_from bg (sb_block s)) r0) as (r1 & -> & Hr1); [intros p Hp; apply HF in Hp; eapply Hcl; [apply Hl; left; reflexivity|exact Hp]|].
      destruct (IH r1 (fun x Hx => Hl x (or_intror Hx))) as (r & -> & Hr). exists r. split; [reflexivity|]. rewrite Hr, Hr1. split.
      + intros [[H1 H2] H3]. split; [exact H1|]. intros sa sb Hsa [<-|Hsb] Hab; [apply H2; [exact Hsa|apply HF, Hab]|auto].
      + intros [H1 H2]. split; [split; [exact H1|]|].
        * intros sa Hsa Hq. apply H2; [exact Hsa|left; reflexivity|apply HF, Hq].
        * intros sa sb Hsa Hsb Hab. apply H2; [exact Hsa|right; exact Hsb|exact Hab]. }
  destruct (K2 done true (incl_refl _)) as (r & Er & Hr). exists r. split; [exact Er|]. rewrite Hr. split; [intros [_ H]; exact H|intros H; split; [reflexivity|exact H]].
Qed.
Print Assumptions block_check_exact.

(** What the manager returns passes this check, if offers do not end before they start. *)
Theorem managed_blocks_pass T S offer (agents agents' : list (agent T)) nodes edges (done : list (sblock S)) :
  NoDup nodes -> (forall a b, edge_of edges a b -> In a nodes /\ In b nodes) ->
  (forall i t w p, offer i true t w p = offer i false t w p) ->
  (forall i again t w p o, offer i again t w p = Some o -> (- TIME_INF < of_start o <= of_end o)%Z) ->
  manage_blocks offer agents (block_graph_of nodes edges) = Some (done, agents') ->
  check_block_dependencies (block_graph_of nodes edges) done = Some true.
Proof.
  intros Hnd He Hdet Hoff H.
  destruct (manage_blocks_correct T S offer agents agents' nodes edges done Hnd He H) as (Hp & Hh & _ & Hedge).
  assert (Hse : forall s, In s done -> (- TIME_INF < sb_start s <= sb_end s)%Z).
  { clear - Hh Hoff. induction Hh as [|done agents1 b m o i agents2 Hh IH Hp Hm1 Hm2 Hr Hs]; intros s Hin; [destruct Hin|].
    apply in_app_iff in Hin as [Hin|[<-|[]]]; [auto|]. cbn [sb_start sb_end].
    destruct (auction_correct _ _ _ _ _ _ _ _ _ Hr) as (a & first & _ & _ & _ & _ & Hs' & _). eapply Hoff; exact Hs'. }
  destruct (block_check_exact S nodes edges done) as (r & -> & Hr).
  - eapply Permutation_NoDup; [apply Permutation_sym; exact Hp|exact Hnd].
  - intros s a Hs Ha. eapply Permutation_in; [apply Permutation_sym; exact Hp|]. apply (He _ _ Ha).
  - f_equal. apply Hr. intros sa sb Ha Hb Hab. destruct (Hedge sa sb Ha Hb Hab) as [_ Hlt].
    assert (A := Hse sa Ha). assert (B := Hse sb Hb). specialize (Hlt Hdet ltac:(lia)). lia.
Qed.
Print Assumptions managed_blocks_pass.

(** ** A concrete case: agents with one machine each; the timeline is the time from which
    the machine is free. Agent 1 is twice as fast on odd blocks. *)
Definition machine_offer (i : nat) (_ : bool) (t : Z) (w : nat) (p : Z) : option (offer_t Z unit) :=
  let start := Z.max t p in
  let d := if Nat.eqb i 1 && Nat.odd w then 5%Z else 10%Z in
  Some (Of start (start + d) tt (start + d))%Z.
Definition machines : list (agent Z) := [Ag 0 0 0 0; Ag 1 0 0 0]%Z.
Definition example_nodes : list nat := [0; 1; 2; 3]%nat.
Definition example_edges : list (nat * nat) := [(0, 1); (0, 2); (1, 3); (2, 3)]%nat.
Example example_managed :
  exists done agents', manage_blocks machine_offer machines (block_graph_of example_nodes example_edges) = Some (done, agents') /\
    map (fun s => (sb_block s, sb_start s, sb_end s, sb_agent s)) done =
      [(0, 1%Z, 11%Z, 0); (2, 12%Z, 22%Z, 0); (1, 12%Z, 17%Z, 1); (3, 23%Z, 28%Z, 1)]%nat /\
    check_block_dependencies (block_graph_of example_nodes example_edges) done = Some true.
Proof. eexists _, _. split; [vm_compute; reflexivity|]. split; vm_compute; reflexivity. Qed.
Lemma example_edges_in a b : edge_of example_edges a b -> In a example_nodes /\ In b example_nodes.
Proof. intros [H|[H|[H|[H|[]]]]]; injection H as <- <-; simpl; auto 10. Qed.
Example example_hypotheses :
  NoDup example_nodes /\ (forall a b, edge_of example_edges a b -> In a example_nodes /\ In b example_nodes) /\
  (forall t h h', (t <= h)%Z -> (h <= h')%Z -> (t <= h')%Z) /\
  (forall i again t w p h, (t <= h)%Z -> (0 <= p <= h)%Z -> exists o : offer_t Z unit, machine_offer i again t w p = Some o /\
     (p <= of_start o)%Z /\ (of_start o <= of_end o <= h + 10)%Z /\ (of_timeline o <= h + 10)%Z) /\
  (forall a, In a machines -> (ag_timeline a <= 1)%Z) /\ acyclic (edge_of example_edges).
Proof.
  split; [repeat constructor; simpl; intuition lia|]. split; [exact example_edges_in|].
  split; [intros; lia|]. split.
  - intros i again t w p h Ht Hp. eexists. split; [reflexivity|]. cbn [of_start of_end of_timeline]. destruct (Nat.eqb i 1 && Nat.odd w); lia.
  - split; [intros a [<-|[<-|[]]]; simpl; lia|].
    destruct example_managed as (done & agents' & H & _).
    eapply (manage_blocks_correct Z unit machine_offer machines agents' example_nodes example_edges done); [| |exact H].
    + repeat constructor; simpl; intuition lia.
    + exact example_edges_in.
Qed.

(** Finding: an agent that loses two auctions is idle twice for the same time. *)
Theorem downtime_counted_twice :
  exists (offer : nat -> bool -> Z -> nat -> Z -> option (offer_t Z unit)) agents o1 o2 b1 b2 agents1 agents2 a,
    run_auction offer agents 0 1 = Some (o1, b1, agents1) /\ run_auction offer agents1 1 1 = Some (o2, b2, agents2) /\
    nth_error agents2 1 = Some a /\ (of_start o1 <= of_start o2)%Z /\ ag_last a = 0%Z /\ (of_start o2 < ag_downtime a)%Z.
Proof.
  exists (fun i _ t w p => let start := Z.max t p in Some (Of start (start + (if Nat.eqb i 0 then 1 else 10)) tt (start + (if Nat.eqb i 0 then 1 else 10)))%Z).
  exists [Ag 0 4 0 0; Ag 1 0 0 0]%Z. do 7 eexists. split; [vm_compute; reflexivity|]. split; [vm_compute; reflexivity|].
  split; [vm_compute; reflexivity|]. vm_compute. repeat split; discriminate.
Qed.
Print Assumptions downtime_counted_twice.
