(** Proofs about traversal of work graphs. *)
From Coq Require Import ZArith List Bool Lia Arith Relations Sorted Permutation.
From Verif Require Import TimeModel MomentumModel GraphModel ScheduleSpec ScheduleInv Digraph StableSort TopoModel TopoProofs TraverseModel.
Import ListNotations.

(** there is an edge (of any type) from [x] to [y] *)
Definition linked (g : graph) (x y : nat) : Prop := exists e, In e (g_edges g) /\ e_from e = x /\ e_to e = y.

Lemma edges_to_in g n e : In e (edges_to g n) <-> In e (g_edges g) /\ e_to e = n.
Proof. unfold edges_to. rewrite filter_In, Nat.eqb_eq. reflexivity. Qed.
Lemma edges_from_in g n e : In e (edges_from g n) <-> In e (g_edges g) /\ e_from e = n.
Proof. unfold edges_from. rewrite filter_In, Nat.eqb_eq. reflexivity. Qed.
Lemma unvisited_parent g visited v :
  existsb (fun e => negb (mem (e_from e) visited)) (edges_to g v) = false <-> forall x, linked g x v -> In x visited.
Proof.
  split.
  - intros H x (e & He & <- & Et). destruct (in_dec Nat.eq_dec (e_from e) visited) as [Hi|Hi]; [exact Hi|exfalso].
    assert (C : existsb (fun e => negb (mem (e_from e) visited)) (edges_to g v) = true).
    { apply existsb_exists. exists e. split; [apply edges_to_in; auto|]. apply mem_nin'. exact Hi. }
    congruence.
  - intros H. destruct (existsb _ _) eqn:E; [|reflexivity]. apply existsb_exists in E as (e & He & Hm).
    apply edges_to_in in He as [He Et]. apply mem_nin' in Hm. exfalso. apply Hm, H. exists e. auto.
Qed.

(** what is left to be put in the queue *)
Definition pending (g : graph) (visited : list nat) : nat :=
  length (filter (fun e => negb (mem (e_from e) visited)) (g_edges g)).
Lemma mem_cons x v l : mem x (v :: l) = Nat.eqb x v || mem x l.
Proof. reflexivity. Qed.
Lemma pending_visit g visited v : ~ In v visited ->
  length (map e_to (edges_from g v)) + pending g (v :: visited) = pending g visited.
Proof.
  intros Hv. unfold pending, edges_from. rewrite map_length. induction (g_edges g) as [|e es IH]; [reflexivity|]. cbn [filter]. rewrite mem_cons.
  destruct (Nat.eqb_spec (e_from e) v) as [E|E]; cbn [orb negb length].
  - rewrite E. apply mem_nin in Hv. rewrite Hv. cbn [negb length]. lia.
  - destruct (mem (e_from e) visited); cbn [negb length]; lia.
Qed.
Lemma pending_le g visited : pending g visited <= length (g_edges g).
Proof.
  unfold pending. induction (g_edges g) as [|e es IH]; simpl; [lia|]. destruct (negb _); simpl; lia.
Qed.

(** ** Plain traversal *)
Lemma traverse_plain g start : forall fuel visited queue,
  length queue + pending g visited < fuel ->
  NoDup visited -> (forall x, In x (queue ++ visited) -> path0 (linked g) start x) ->
  (forall x y, In x visited -> linked g x y -> In y (queue ++ visited)) ->
  In start (queue ++ visited) ->
  exists l, traverse fuel false g visited queue = Ends l /\ NoDup l /\ (forall x, In x l <-> path0 (linked g) start x).
Proof.
  induction fuel as [|fuel IH]; intros visited queue Hf Hnd Hr Hc Hs; [lia|]. cbn [traverse].
  destruct queue as [|v q]; cbn [andb].
  - exists (rev visited). split; [reflexivity|]. split; [apply NoDup_rev; exact Hnd|].
    intros x. rewrite <- in_rev. split; [intros H; apply Hr; exact H|]. simpl in *.
    intros H. apply clos_rt_rtn1 in H. induction H as [|y z Hyz _ IH']; [exact Hs|eauto].
  - destruct (mem v visited) eqn:Em.
    + apply mem_in in Em. apply IH; auto; cbn [length] in *; [lia| | |].
      * intros x Hx. apply Hr. right. exact Hx.
      * intros x y Hx Hy. destruct (Hc x y Hx Hy) as [<-|H]; [|exact H]. apply in_or_app. auto.
      * destruct Hs as [<-|H]; [|exact H]. apply in_or_app. auto.
    + apply mem_nin in Em. assert (Hp := pending_visit g visited v Em).
      apply IH.
      * rewrite app_length. cbn [length] in Hf. lia.
      * constructor; assumption.
      * intros x Hx. rewrite <- app_assoc, !in_app_iff in Hx. simpl in Hx.
        destruct Hx as [Hx|[Hx|[<-|Hx]]]; [apply Hr; simpl; rewrite in_app_iff; auto| |apply Hr; left; reflexivity|apply Hr; simpl; rewrite in_app_iff; auto].
        apply in_map_iff in Hx as (e & <- & He). apply edges_from_in in He as [He Ef].
        eapply rt_trans; [apply (Hr v); left; reflexivity|]. apply rt_step. exists e. auto.
      * intros x y Hx Hy. rewrite <- app_assoc, !in_app_iff. simpl. destruct Hx as [<-|Hx].
        -- right. left. destruct Hy as (e & He & Ef & Et). apply in_map_iff. exists e. split; [exact Et|]. apply edges_from_in. auto.
        -- destruct (Hc x y Hx Hy) as [<-|H]; [auto|]. apply in_app_or in H as [H|H]; auto.
      * rewrite <- app_assoc, !in_app_iff. simpl. destruct Hs as [<-|H]; [auto|]. apply in_app_or in H as [H|H]; auto.
Qed.

(** ** Topological traversal *)
Section Topological.
  Variable g : graph.
  Variable nodes : list nat.
  Variable start : nat.
  Hypothesis Hac : acyclic (linked g).
  Hypothesis Hcl : forall x y, linked g x y -> In x nodes /\ In y nodes.
  Hypothesis Hst : In start nodes.
  (** the start node is the only one without predecessors *)
  Hypothesis Hsource : forall x, In x nodes -> x = start \/ exists p, linked g p x.

  Definition tr_inv (visited queue : list nat) : Prop :=
    NoDup visited /\ incl (queue ++ visited) nodes /\ In start (queue ++ visited)
    /\ (forall x y, In x visited -> linked g x y -> In y (queue ++ visited))
    /\ topological (linked g) (rev visited)
    /\ (forall x y, In y visited -> linked g x y -> In x visited).

  Definition is_ready (visited : list nat) (v : nat) : Prop := forall x, linked g x v -> In x visited.

  (** Among the nodes not yet visited one has only visited predecessors. *)
  Lemma minimal_unvisited visited : (exists x, In x nodes /\ ~ In x visited) ->
    exists m, In m nodes /\ ~ In m visited /\ is_ready visited m.
  Proof.
    intros (x0 & Hx0 & Hn0).
    set (U := filter (fun x => negb (mem x visited)) nodes).
    assert (HU : forall x, In x U <-> In x nodes /\ ~ In x visited) by (intros x; unfold U; rewrite filter_In, mem_nin'; reflexivity).
    assert (Hdec : forall x, In x nodes -> {is_ready visited x} + {exists y, In y U /\ linked g y x}).
    { intros x Hx. destruct (existsb (fun e => negb (mem (e_from e) visited)) (edges_to g x)) eqn:E.
      - right. apply existsb_exists in E as (e & He & Hm). apply edges_to_in in He as [He Et]. apply mem_nin' in Hm.
        exists (e_from e). assert (L : linked g (e_from e) x) by (exists e; auto). split; [apply HU; split; [apply (Hcl _ _ L)|exact Hm]|exact L].
      - left. unfold is_ready. apply unvisited_parent. exact E. }
    assert (Hs : (exists m, In m U /\ is_ready visited m) \/ (forall m, In m U -> exists y, In y U /\ linked g y m)).
    { assert (G : forall l, incl l U -> (exists m, In m U /\ is_ready visited m) \/ (forall m, In m l -> exists y, In y U /\ linked g y m)).
      { induction l as [|z l IH]; intros Hl; [right; intros m []|].
        destruct (IH ltac:(intros y Hy; apply Hl; right; exact Hy)) as [H|H]; [left; exact H|].
        assert (Hz : In z U) by (apply Hl; left; reflexivity). assert (Hzn := proj1 (proj1 (HU z) Hz)).
        destruct (Hdec z Hzn) as [R|R]; [left; eauto|]. right. intros m [<-|Hm]; auto. }
      apply (G U). apply incl_refl. }
    destruct Hs as [(m & Hm & R)|Hs]; [exists m; apply HU in Hm; tauto|].
    exfalso. apply (acyclic_minimal (linked g) U Hac); [|exact Hs].
    intros E. assert (In x0 U) by (apply HU; auto). rewrite E in *. contradiction.
  Qed.
  (** A node that can be visited is waiting, as long as anything is. *)
  Lemma ready_waiting visited queue : tr_inv visited queue -> queue <> [] ->
    exists pre y post, queue = pre ++ y :: post /\ is_ready visited y.
  Proof.
    intros (Hnd & Hi & Hs & Hc & Ht & Hp) Hq.
    assert (Hdec : (exists x, In x nodes /\ ~ In x visited) \/ incl nodes visited).
    { clear. induction nodes as [|z l IH]; [right; intros x []|]. destruct (in_dec Nat.eq_dec z visited) as [Hz|Hz].
      - destruct IH as [(x & Hx & Hn)|IH]; [left; exists x; split; [right; exact Hx|exact Hn]|right; intros x [<-|Hx]; auto].
      - left. exists z. split; [left; reflexivity|exact Hz]. }
    destruct Hdec as [Hdec|Hdec].
    - destruct (minimal_unvisited visited Hdec) as (m & Hm & Hn & R).
      assert (Hin : In m (queue ++ visited)).
      { destruct (Hsource m Hm) as [->|(p & L)]; [exact Hs|]. apply (Hc p m); [apply R; exact L|exact L]. }
      apply in_app_or in Hin as [Hin|Hin]; [|contradiction]. apply in_split in Hin as (pre & post & E). eauto.
    - destruct queue as [|x q]; [congruence|]. exists [], x, q. split; [reflexivity|].
      intros y L. apply Hdec. apply (Hcl _ _ L).
  Qed.
  Lemma all_visited visited : tr_inv visited [] -> incl nodes visited.
  Proof.
    intros H x Hx. destruct (in_dec Nat.eq_dec x visited) as [Hi|Hi]; [exact Hi|exfalso].
    destruct (minimal_unvisited visited) as (m & Hm & Hn & R); [eauto|].
    destruct H as (_ & _ & Hs & Hc & _). simpl in *.
    destruct (Hsource m Hm) as [->|(p & L)]; [contradiction|]. apply Hn. apply (Hc p m); [apply R; exact L|exact L].
  Qed.

  Lemma traverse_topological (K0 : nat) : forall fuel visited queue pre y post,
    tr_inv visited queue -> queue = pre ++ y :: post -> is_ready visited y ->
    length queue + pending g visited <= K0 ->
    (length queue + pending g visited) * S K0 + length pre < fuel ->
    exists l, traverse fuel true g visited queue = Ends l /\ NoDup l /\ (forall x, In x l <-> In x nodes) /\ topological (linked g) l.
  Proof.
    induction fuel as [|fuel IH]; intros visited queue pre y post Hinv E R HK Hf; [lia|]. cbn [traverse].
    destruct Hinv as (Hnd & Hi & Hs & Hc & Ht & Hp).
    (* continuing after [queue'] has been reached with fewer things left to do *)
    assert (Hnext : forall visited' queue', tr_inv visited' queue' ->
              length queue' + pending g visited' < length queue + pending g visited ->
              exists l, traverse fuel true g visited' queue' = Ends l /\ NoDup l /\ (forall x, In x l <-> In x nodes) /\ topological (linked g) l).
    { intros visited' queue' Hinv' Hlt. destruct queue' as [|x0 q0] eqn:Eq.
      - destruct fuel as [|fuel']; [nia|]. cbn [traverse].
        exists (rev visited'). assert (Hall := all_visited visited' Hinv'). destruct Hinv' as (Hnd' & Hi' & _ & _ & Ht' & _).
        split; [reflexivity|]. split; [apply NoDup_rev; exact Hnd'|]. split; [|exact Ht'].
        intros x. rewrite <- in_rev. split; [intros Hx; apply Hi'; exact Hx|apply Hall].
      - rewrite <- Eq in *. destruct (ready_waiting visited' queue' Hinv') as (pre' & y' & post' & E' & R'); [rewrite Eq; discriminate|].
        apply (IH visited' queue' pre' y' post' Hinv' E' R'); [lia|].
        assert (length pre' < length queue') by (rewrite E', app_length; cbn [length]; lia). nia. }
    destruct queue as [|v q]; [destruct pre; discriminate|]. cbn [andb].
    destruct (existsb _ (edges_to g v)) eqn:Ev.
    - (* postponed *)
      destruct pre as [|v' pre]; simpl in E; injection E as -> E.
      { exfalso. assert (C := proj2 (unvisited_parent g visited y) R). congruence. }
      apply (IH visited (q ++ [v']) pre y (post ++ [v'])).
      + assert (Hperm : forall x, In x ((q ++ [v']) ++ visited) <-> In x ((v' :: q) ++ visited)).
        { intros x. rewrite !in_app_iff. simpl. tauto. }
        split; [exact Hnd|]. split; [intros x Hx; apply Hi, Hperm; exact Hx|]. split; [apply Hperm; exact Hs|].
        split; [intros a b Ha Hb; apply Hperm; eauto|]. auto.
      + rewrite E, <- app_assoc. reflexivity.
      + exact R.
      + rewrite app_length. cbn [length] in *. lia.
      + rewrite app_length. cbn [length] in *. nia.
    - assert (Rv := proj1 (unvisited_parent g visited v) Ev).
      destruct (mem v visited) eqn:Em.
      + apply mem_in in Em. apply Hnext; [|cbn [length]; lia].
        assert (Hperm : forall x, In x ((v :: q) ++ visited) -> In x (q ++ visited)).
        { intros x [<-|Hx]; [apply in_or_app; auto|exact Hx]. }
        split; [exact Hnd|]. split; [intros x Hx; apply Hi; right; exact Hx|]. split; [apply Hperm; exact Hs|].
        split; [intros a b Ha Hb; apply Hperm; eauto|]. auto.
      + apply mem_nin in Em. assert (Hpv := pending_visit g visited v Em).
        apply Hnext; [|rewrite app_length; cbn [length]; lia].
        assert (Hvn : In v nodes) by (apply Hi; left; reflexivity).
        assert (Hperm : forall x, In x ((v :: q) ++ visited) -> In x ((q ++ map e_to (edges_from g v)) ++ v :: visited)).
        { intros x Hx. rewrite !in_app_iff in *. simpl in *. tauto. }
        split; [constructor; assumption|]. split; [|split; [apply Hperm; exact Hs|split; [|split]]].
        * intros x Hx. rewrite <- app_assoc, !in_app_iff in Hx. simpl in Hx.
          destruct Hx as [Hx|[Hx|[<-|Hx]]]; [apply Hi; simpl; rewrite in_app_iff; auto| |exact Hvn|apply Hi; simpl; rewrite in_app_iff; auto].
          apply in_map_iff in Hx as (e & <- & He). apply edges_from_in in He as [He Ef].
          apply (Hcl v (e_to e)). exists e. auto.
        * intros x z [<-|Hx] L; [|apply Hperm; eauto]. apply in_or_app. left. apply in_or_app. right.
          destruct L as (e & He & Ef & Et). apply in_map_iff. exists e. split; [exact Et|]. apply edges_from_in. auto.
        * intros x z L Hx Hz. simpl in *. apply in_app_or in Hx, Hz. destruct Hz as [Hz|[<-|[]]].
          -- destruct Hx as [Hx|[<-|[]]]; [apply comes_before_app_l; apply Ht; assumption|].
             exfalso. rewrite <- in_rev in Hz. apply Em. apply (Hp v z Hz L).
          -- apply comes_before_app_lr; [|left; reflexivity]. destruct Hx as [Hx|[<-|[]]]; [exact Hx|].
             exfalso. apply (Hac v). apply t_step. exact L.
        * intros x z [<-|Hz] L; [right; apply Rv; exact L|right; eapply Hp; eauto].
  Qed.

  Lemma traverse_start : exists l, traverse_children true g start = Ends l /\ NoDup l
    /\ (forall x, In x l <-> In x nodes) /\ topological (linked g) l.
  Proof.
    assert (Hinv : tr_inv [] [start]).
    { split; [constructor|]. split; [intros x [<-|[]]; exact Hst|]. split; [left; reflexivity|].
      split; [intros x y []|]. split; [intros x y _ []|intros x y []]. }
    destruct (ready_waiting [] [start] Hinv) as (pre & y & post & E & R); [discriminate|].
    unfold traverse_children, traverse_rounds.
    apply (traverse_topological (S (length (g_edges g))) _ _ _ pre y post Hinv E R).
    - assert (H := pending_le g []). cbn [length]. lia.
    - assert (H := pending_le g []). assert (length pre <= 1).
      { apply (f_equal (@length nat)) in E. rewrite app_length in E. cbn [length] in E. lia. }
      cbn [length]. nia.
  Qed.
End Topological.
