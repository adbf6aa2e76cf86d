From Coq Require Import ZArith List Bool Lia Relations Permutation Arith.
From Verif Require Import TimeModel MomentumModel GraphModel TopoModel TraverseModel Digraph TraverseProofs TraverseTheorems
  ScheduleSpec GraphEditModel GraphEditSpec.
Import ListNotations.

Lemma path0_iff R a b : path0 R a b <-> a = b \/ path R a b.
Proof. split; [apply path0_path|]. intros [->|H]; [apply rt_refl|apply path_path0; exact H]. Qed.
Lemma path0_poi w a b : path0 (linked (wg_graph w)) a b <-> precedes_or_is w a b.
Proof. apply path0_iff. Qed.
Lemma path0_step R a b c : path0 R a b -> R b c -> path R a c.
Proof. intros H1 H2. apply path0_path in H1 as [->|H1]; [apply t_step; exact H2|eapply t_trans; [exact H1|apply t_step; exact H2]]. Qed.
Lemma path0_path_trans R a b c : path0 R a b -> path R b c -> path R a c.
Proof. intros H1 H2. apply path0_path in H1 as [->|H1]; [exact H2|eapply t_trans; eauto]. Qed.
Lemma path_path0_trans R a b c : path R a b -> path0 R b c -> path R a c.
Proof. intros H1 H2. apply path0_path in H2 as [<-|H2]; [exact H1|eapply t_trans; eauto]. Qed.
Lemma path_mono (R Q : nat -> nat -> Prop) a b : (forall x y, R x y -> Q x y) -> path R a b -> path Q a b.
Proof. intros H. induction 1; [apply t_step; auto|eapply t_trans; eauto]. Qed.
Lemma path0_mono (R Q : nat -> nat -> Prop) a b : (forall x y, R x y -> Q x y) -> path0 R a b -> path0 Q a b.
Proof. intros H. rewrite !path0_iff. intros [->|P]; [auto|right; eapply path_mono; eauto]. Qed.
Lemma path_ends (R : nat -> nat -> Prop) (N : nat -> Prop) a b : (forall x y, R x y -> N x /\ N y) -> path R a b -> N a /\ N b.
Proof. intros H. induction 1; [auto|tauto]. Qed.
Lemma path_first R a b : path R a b -> exists c, R a c /\ path0 R c b.
Proof.
  intros H. apply clos_trans_t1n in H. induction H as [a b H|a c b H _ (d & Hd & P)].
  - exists b. split; [exact H|apply rt_refl].
  - exists c. split; [exact H|]. apply path_path0.
    apply path0_iff in P as [->|P]; [apply t_step; exact Hd|eapply t_trans; [apply t_step; exact Hd|exact P]].
Qed.
Lemma path_last R a b : path R a b -> exists c, path0 R a c /\ R c b.
Proof.
  intros H. apply clos_trans_tn1 in H. induction H as [b H|b c H _ (d & P & Hd)].
  - exists a. split; [apply rt_refl|exact H].
  - exists b. split; [|exact H]. apply path_path0. eapply path0_step; eauto.
Qed.

(** ** Renamed relations *)
Definition image (ren : nat -> nat) (R : nat -> nat -> Prop) (x y : nat) : Prop := exists a b, ren a = x /\ ren b = y /\ R a b.
Lemma image_path ren R a b : path R a b -> path (image ren R) (ren a) (ren b).
Proof. induction 1; [apply t_step; exists x, y; auto|eapply t_trans; eauto]. Qed.
Lemma image_path_inv ren (R : nat -> nat -> Prop) l x y : one_to_one ren l -> (forall a b, R a b -> In a l /\ In b l) ->
  path (image ren R) x y -> exists a b, ren a = x /\ ren b = y /\ path R a b.
Proof.
  intros Hi Hc. induction 1 as [x y (a & b & E1 & E2 & H)|x y z _ (a & b & E1 & E2 & H) _ (c & d & E3 & E4 & H')].
  - exists a, b. split; [exact E1|]. split; [exact E2|apply t_step; exact H].
  - exists a, d. split; [exact E1|]. split; [exact E4|]. assert (b = c).
    { apply Hi; [|
        |congruence]; [eapply path_ends in H; [|exact Hc]|eapply path_ends in H'; [|exact Hc]]; tauto. }
    subst c. eapply t_trans; eauto.
Qed.
Lemma image_path_iff ren (R : nat -> nat -> Prop) l a b : one_to_one ren l -> (forall a b, R a b -> In a l /\ In b l) -> In a l -> In b l ->
  (path (image ren R) (ren a) (ren b) <-> path R a b).
Proof.
  intros Hi Hc Ha Hb. split; [|apply image_path]. intros H. destruct (image_path_inv _ _ _ _ _ Hi Hc H) as (c & d & E1 & E2 & P).
  destruct (path_ends _ _ _ _ Hc P). apply Hi in E1; [|assumption|assumption]. apply Hi in E2; [|assumption|assumption]. subst. exact P.
Qed.
Lemma image_path0_iff ren (R : nat -> nat -> Prop) l a b : one_to_one ren l -> (forall a b, R a b -> In a l /\ In b l) -> In a l -> In b l ->
  (path0 (image ren R) (ren a) (ren b) <-> path0 R a b).
Proof.
  intros Hi Hc Ha Hb. rewrite !path0_iff, (image_path_iff ren R l a b Hi Hc Ha Hb).
  split; (intros [E|H]; [left|right; exact H]); [apply Hi; assumption|congruence].
Qed.
Lemma image_acyclic ren (R : nat -> nat -> Prop) l : one_to_one ren l -> (forall a b, R a b -> In a l /\ In b l) -> acyclic R -> acyclic (image ren R).
Proof.
  intros Hi Hc Ha x H. destruct (image_path_inv _ _ _ _ _ Hi Hc H) as (a & b & E1 & E2 & P).
  destruct (path_ends _ _ _ _ Hc P). assert (a = b) by (apply Hi; congruence || assumption). subst. exact (Ha _ P).
Qed.

(** ** Splicing two graphs *)
Section Splice.
  Variables RM RS En Ex : nat -> nat -> Prop.
  Variables M S : nat -> Prop.
  Hypothesis HM : forall x y, RM x y -> M x /\ M y.
  Hypothesis HS : forall x y, RS x y -> S x /\ S y.
  Hypothesis HEn : forall x y, En x y -> M x /\ S y.
  Hypothesis HEx : forall x y, Ex x y -> S x /\ M y.
  Hypothesis Hdis : forall x, M x -> S x -> False.
  Hypothesis Hback : forall a s t b, En a s -> Ex t b -> ~ path0 RM b a.
  Definition spliced (x y : nat) : Prop := RM x y \/ RS x y \/ En x y \/ Ex x y.
  Definition splice_path (x y : nat) : Prop :=
    (M x /\ M y /\ (path RM x y \/ exists a s t b, path0 RM x a /\ En a s /\ path0 RS s t /\ Ex t b /\ path0 RM b y))
    \/ (M x /\ S y /\ exists a s, path0 RM x a /\ En a s /\ path0 RS s y)
    \/ (S x /\ M y /\ exists t b, path0 RS x t /\ Ex t b /\ path0 RM b y)
    \/ (S x /\ S y /\ path RS x y).

  Lemma spliced_path_fwd x y : splice_path x y -> path spliced x y.
  Proof.
    assert (KM : forall a b, path0 RM a b -> path0 spliced a b) by (intros a b; apply path0_mono; unfold spliced; auto).
    assert (KS : forall a b, path0 RS a b -> path0 spliced a b) by (intros a b; apply path0_mono; unfold spliced; auto).
    intros [(_ & _ & [H|(a & s & t & b & H1 & H2 & H3 & H4 & H5)])|[(_ & _ & a & s & H1 & H2 & H3)|[(_ & _ & t & b & H1 & H2 & H3)|(_ & _ & H)]]].
    - eapply path_mono; [|exact H]. unfold spliced; auto.
    - apply path_path0_trans with b; [|apply KM; exact H5]. apply path0_step with t; [|unfold spliced; auto].
      eapply rt_trans; [|apply KS; exact H3]. eapply rt_trans; [apply KM; exact H1|apply rt_step; unfold spliced; auto].
    - apply path_path0_trans with s; [|apply KS; exact H3]. apply path0_step with a; [apply KM; exact H1|unfold spliced; auto].
    - apply path_path0_trans with b; [|apply KM; exact H3]. apply path0_step with t; [apply KS; exact H1|unfold spliced; auto].
    - eapply path_mono; [|exact H]. unfold spliced; auto.
  Qed.
  Lemma splice_step x y z : splice_path x y -> spliced y z -> splice_path x z.
  Proof.
    intros H [E|[E|[E|E]]].
    - destruct (HM _ _ E) as [Hy Hz]. destruct H as [(Hx & _ & H)|[(_ & H & _)|[(Hx & _ & H)|(_ & H & _)]]]; try (exfalso; eauto; fail).
      + left. split; [exact Hx|]. split; [exact Hz|]. destruct H as [H|(a & s & t & b & H1 & H2 & H3 & H4 & H5)].
        * left. eapply t_trans; [exact H|apply t_step; exact E].
        * right. exists a, s, t, b. repeat (split; [assumption|]). eapply rt_trans; [exact H5|apply rt_step; exact E].
      + right; right; left. split; [exact Hx|]. split; [exact Hz|]. destruct H as (t & b & H1 & H2 & H3).
        exists t, b. repeat (split; [assumption|]). eapply rt_trans; [exact H3|apply rt_step; exact E].
    - destruct (HS _ _ E) as [Hy Hz]. destruct H as [(_ & H & _)|[(Hx & _ & H)|[(_ & H & _)|(Hx & _ & H)]]]; try (exfalso; eauto; fail).
      + right; left. split; [exact Hx|]. split; [exact Hz|]. destruct H as (a & s & H1 & H2 & H3).
        exists a, s. repeat (split; [assumption|]). eapply rt_trans; [exact H3|apply rt_step; exact E].
      + right; right; right. split; [exact Hx|]. split; [exact Hz|]. eapply t_trans; [exact H|apply t_step; exact E].
    - destruct (HEn _ _ E) as [Hy Hz]. destruct H as [(Hx & _ & H)|[(_ & H & _)|[(Hx & _ & H)|(_ & H & _)]]]; try (exfalso; eauto; fail).
      + right; left. split; [exact Hx|]. split; [exact Hz|]. destruct H as [H|(a & s & t & b & H1 & H2 & H3 & H4 & H5)].
        * exists y, z. split; [apply path_path0; exact H|]. split; [exact E|apply rt_refl].
        * exfalso. eapply Hback; eauto.
      + exfalso. destruct H as (t & b & H1 & H2 & H3). eapply Hback; eauto.
    - destruct (HEx _ _ E) as [Hy Hz]. destruct H as [(_ & H & _)|[(Hx & _ & H)|[(_ & H & _)|(Hx & _ & H)]]]; try (exfalso; eauto; fail).
      + left. split; [exact Hx|]. split; [exact Hz|]. right. destruct H as (a & s & H1 & H2 & H3).
        exists a, s, y, z. repeat (split; [assumption|]). apply rt_refl.
      + right; right; left. split; [exact Hx|]. split; [exact Hz|]. exists y, z. split; [apply path_path0; exact H|]. split; [exact E|apply rt_refl].
  Qed.
  Lemma splice_edge x y : spliced x y -> splice_path x y.
  Proof.
    intros [E|[E|[E|E]]].
    - left. destruct (HM _ _ E). split; [assumption|]. split; [assumption|]. left. apply t_step. exact E.
    - right; right; right. destruct (HS _ _ E). split; [assumption|]. split; [assumption|]. apply t_step. exact E.
    - right; left. destruct (HEn _ _ E). split; [assumption|]. split; [assumption|]. exists x, y. split; [apply rt_refl|]. split; [exact E|apply rt_refl].
    - right; right; left. destruct (HEx _ _ E). split; [assumption|]. split; [assumption|]. exists x, y. split; [apply rt_refl|]. split; [exact E|apply rt_refl].
  Qed.
  Lemma spliced_path x y : path spliced x y <-> splice_path x y.
  Proof.
    split; [|apply spliced_path_fwd]. intros H. apply clos_trans_tn1 in H. induction H as [y H|y z H _ IH].
    - apply splice_edge. exact H.
    - eapply splice_step; eauto.
  Qed.
  Lemma spliced_acyclic : acyclic RM -> acyclic RS -> acyclic spliced.
  Proof.
    intros A1 A2 x H. apply spliced_path in H.
    destruct H as [(_ & _ & [H|(a & s & t & b & H1 & H2 & H3 & H4 & H5)])|[(H1 & H2 & _)|[(H1 & H2 & _)|(_ & _ & H)]]].
    - exact (A1 _ H).
    - apply (Hback a s t b H2 H4). eapply rt_trans; eauto.
    - eauto.
    - eauto.
    - exact (A2 _ H).
  Qed.
End Splice.

(** ** Facts about projects *)
Lemma make_project g start finish nodes : acyclic (linked g) -> (forall x y, linked g x y -> In x nodes /\ In y nodes) -> NoDup nodes ->
  single_start g nodes start ->
  exists w, make_work_graph g start finish = Ends w /\ wg_graph w = g /\ wg_start w = start /\ wg_finish w = finish
    /\ Permutation (wg_nodes w) nodes /\ topological (linked g) (wg_nodes w)
    /\ (single_finish g nodes finish -> project w).
Proof.
  intros Ha Hc Hn Hs. destruct (topological_traversal_correct g nodes start Ha Hc Hn (proj1 Hs) (proj2 Hs)) as (l & E & P & T).
  exists (WG g start finish l). unfold make_work_graph. rewrite E. cbn [wg_graph wg_start wg_finish wg_nodes].
  repeat (split; [reflexivity|]). split; [exact P|]. split; [exact T|]. intros Hf.
  assert (In_l : forall x, In x l <-> In x nodes) by (intros x; split; apply Permutation_in; [exact P|apply Permutation_sym; exact P]).
  constructor; cbn [wg_graph wg_start wg_finish wg_nodes].
  - exact Ha.
  - intros x y H. rewrite !In_l. auto.
  - eapply Permutation_NoDup; [apply Permutation_sym; exact P|exact Hn].
  - destruct Hs as [H1 H2]. split; [apply In_l; exact H1|]. intros x Hx. apply H2, In_l, Hx.
  - destruct Hf as [H1 H2]. split; [apply In_l; exact H1|]. intros x Hx. apply H2, In_l, Hx.
Qed.
Lemma from_start w x : project w -> In x (wg_nodes w) -> path0 (linked (wg_graph w)) (wg_start w) x.
Proof.
  intros [Ha Hc Hn Hs Hf] Hx. destruct (topological_traversal_correct _ _ _ Ha Hc Hn (proj1 Hs) (proj2 Hs)) as (l & _ & P & T).
  assert (Hnl : NoDup l) by (eapply Permutation_NoDup; [apply Permutation_sym; exact P|exact Hn]).
  remember (pos l x) as k eqn:Ek. revert x Hx Ek. induction k as [k IH] using lt_wf_ind. intros x Hx ->.
  destruct (proj2 Hs x Hx) as [->|(p & L)]; [apply rt_refl|]. destruct (Hc _ _ L) as [Hp _].
  assert (C : comes_before l p x) by (apply T; [exact L| |]; eapply Permutation_in; [apply Permutation_sym; exact P|assumption|apply Permutation_sym; exact P|assumption]).
  apply comes_before_pos in C; [|exact Hnl]. eapply rt_trans; [eapply IH; [|exact Hp|reflexivity]; tauto|apply rt_step; exact L].
Qed.
Lemma to_finish w x : project w -> In x (wg_nodes w) -> path0 (linked (wg_graph w)) x (wg_finish w).
Proof.
  intros [Ha Hc Hn Hs Hf] Hx. destruct (topological_traversal_correct _ _ _ Ha Hc Hn (proj1 Hs) (proj2 Hs)) as (l & _ & P & T).
  assert (Hnl : NoDup l) by (eapply Permutation_NoDup; [apply Permutation_sym; exact P|exact Hn]).
  assert (In_l : forall x, In x (wg_nodes w) -> In x l) by (intros y; apply Permutation_in; apply Permutation_sym; exact P).
  remember (length l - pos l x) as k eqn:Ek. revert x Hx Ek. induction k as [k IH] using lt_wf_ind. intros x Hx ->.
  destruct (proj2 Hf x Hx) as [->|(c & L)]; [apply rt_refl|]. destruct (Hc _ _ L) as [_ Hcn].
  assert (C : comes_before l x c) by (apply T; auto).
  apply comes_before_pos in C; [|exact Hnl]. eapply rt_trans; [apply rt_step; exact L|eapply IH; [|exact Hcn|reflexivity]].
  assert (pos l c < length l) by (apply pos_lt; tauto). lia.
Qed.
Lemma start_first w x : project w -> ~ linked (wg_graph w) x (wg_start w).
Proof.
  intros H L. destruct (pj_closed w H _ _ L) as [Hx _]. apply (pj_acyclic w H (wg_start w)).
  eapply path0_step; [apply (from_start w x H Hx)|exact L].
Qed.
Lemma finish_last w x : project w -> ~ linked (wg_graph w) (wg_finish w) x.
Proof.
  intros H L. destruct (pj_closed w H _ _ L) as [_ Hx]. apply (pj_acyclic w H (wg_finish w)).
  eapply path_path0_trans; [apply t_step; exact L|apply (to_finish w x H Hx)].
Qed.

(** ** Copies *)
Lemma mem_in n l : mem n l = true <-> In n l.
Proof. unfold mem. apply existsb_in. Qed.
Lemma mem_nin n l : mem n l = false <-> ~ In n l.
Proof. unfold mem. apply existsb_nin. Qed.
Definition kept_edge (ex : list nat) (e : edge) : bool := negb (mem (e_from e) ex) && negb (mem (e_to e) ex).
Lemma filter_filter {A} (p q : A -> bool) l : filter p (filter q l) = filter (fun x => p x && q x) l.
Proof. induction l as [|x l IH]; [reflexivity|]. simpl. destruct (q x), (p x) eqn:E; simpl; rewrite ?E, ?IH; reflexivity. Qed.
Lemma filter_none {A} (p : A -> bool) l : (forall x, In x l -> p x = false) -> filter p l = [].
Proof. induction l as [|x l IH]; intros H; [reflexivity|]. simpl. rewrite (H x (or_introl eq_refl)). apply IH. intros y Hy. apply H. right. exact Hy. Qed.
Lemma filter_all {A} (p : A -> bool) l : (forall x, In x l -> p x = true) -> filter p l = l.
Proof. induction l as [|x l IH]; intros H; [reflexivity|]. simpl. rewrite (H x (or_introl eq_refl)). f_equal. apply IH. intros y Hy. apply H. right. exact Hy. Qed.
Lemma restored_alt ren w ex : restored_edges ren w ex
  = map (rename_edge ren) (concat (map (fun n => filter (fun e => Nat.eqb (e_to e) n) (filter (kept_edge ex) (g_edges (wg_graph w)))) (wg_nodes w))).
Proof.
  unfold restored_edges. rewrite concat_map, map_map. f_equal. apply map_ext. intros n.
  destruct (mem n ex) eqn:E.
  - rewrite filter_filter, filter_none; [reflexivity|]. intros e _. unfold kept_edge.
    destruct (Nat.eqb_spec (e_to e) n) as [->|_]; [rewrite E, andb_false_r; reflexivity|reflexivity].
  - f_equal. unfold edges_to. rewrite !filter_filter. apply filter_ext. intros e. unfold kept_edge.
    destruct (Nat.eqb_spec (e_to e) n) as [->|_]; simpl; [rewrite E; destruct (mem (e_from e) ex); reflexivity|].
    rewrite andb_false_r. reflexivity.
Qed.
Lemma restored_perm ren w ex : project w ->
  Permutation (restored_edges ren w ex) (map (rename_edge ren) (filter (kept_edge ex) (g_edges (wg_graph w)))).
Proof.
  intros H. rewrite restored_alt. apply Permutation_map. apply edges_partition; [apply (pj_nodup w H)|].
  intros e He. apply filter_In in He as [He _]. apply (pj_closed w H (e_from e) (e_to e)). exists e. auto.
Qed.
Lemma restored_linked ren w ex u x y : project w ->
  (linked (Gr (restored_edges ren w ex) u) x y
   <-> image ren (fun a b => linked (wg_graph w) a b /\ ~ In a ex /\ ~ In b ex) x y).
Proof.
  intros H. assert (P := restored_perm ren w ex H). split.
  - intros (e & He & <- & <-). cbn [g_edges] in He. apply (Permutation_in _ P) in He. apply in_map_iff in He as (e0 & <- & He).
    apply filter_In in He as [He K]. unfold kept_edge in K. apply andb_true_iff in K as [K1 K2].
    apply negb_true_iff in K1. apply negb_true_iff in K2. apply mem_nin in K1. apply mem_nin in K2.
    exists (e_from e0), (e_to e0). split; [reflexivity|]. split; [reflexivity|]. split; [exists e0; auto|]. auto.
  - intros (a & b & <- & <- & (e & He & E1 & E2) & K1 & K2). exists (rename_edge ren e). cbn [g_edges].
    split; [|rewrite <- E1, <- E2; auto]. apply (Permutation_in _ (Permutation_sym P)). apply in_map. apply filter_In. split; [exact He|].
    unfold kept_edge. rewrite E1, E2. apply mem_nin in K1. apply mem_nin in K2. rewrite K1, K2. reflexivity.
Qed.
Lemma copied_unit_spec ren w other n : one_to_one ren (wg_nodes w) -> In n (wg_nodes w) ->
  copied_unit ren w other (ren n) = g_unit (wg_graph w) n.
Proof.
  intros Hi Hn. unfold copied_unit. destruct (find _ _) as [m|] eqn:E.
  - apply find_some in E as [Hm E]. apply Nat.eqb_eq in E. apply Hi in E; [subst; reflexivity|exact Hm|exact Hn].
  - eapply find_none in E; [|exact Hn]. rewrite Nat.eqb_refl in E. discriminate.
Qed.
Lemma copied_unit_other ren w other m : ~ In m (map ren (wg_nodes w)) -> copied_unit ren w other m = other m.
Proof.
  intros Hn. unfold copied_unit. destruct (find _ _) as [n|] eqn:E; [|reflexivity].
  apply find_some in E as [Hm E]. apply Nat.eqb_eq in E. exfalso. apply Hn. apply in_map_iff. eauto.
Qed.
Lemma prepare_copy_all ren w : project w -> prepare_copy ren w [] = Some (wg_nodes w, restored_edges ren w []).
Proof.
  intros H. unfold prepare_copy. rewrite filter_all by reflexivity.
  destruct (wg_nodes w) eqn:E; [|reflexivity]. destruct (pj_start w H) as [K _]. rewrite E in K. destruct K.
Qed.
Lemma NoDup_map_inj (ren : nat -> nat) l : one_to_one ren l -> NoDup l -> NoDup (map ren l).
Proof.
  intros Hi Hn. induction Hn as [|x l Hx Hn IH]; [constructor|]. cbn [map]. constructor.
  - intros K. apply in_map_iff in K as (y & E & Hy). apply Hi in E; [subst; auto|right; exact Hy|left; reflexivity].
  - apply IH. intros a b Ha Hb. apply Hi; right; assumption.
Qed.
Lemma NoDup_app_intro {A} (l1 l2 : list A) : NoDup l1 -> NoDup l2 -> (forall x, In x l1 -> ~ In x l2) -> NoDup (l1 ++ l2).
Proof.
  intros H1 H2 H. induction H1 as [|x l1 Hx H1 IH]; [exact H2|]. simpl. constructor.
  - intros K. apply in_app_or in K as [K|K]; [auto|]. exact (H x (or_introl eq_refl) K).
  - apply IH. intros y Hy. apply H. right. exact Hy.
Qed.
Lemma linked_app es1 es2 u x y : linked (Gr (es1 ++ es2) u) x y <-> linked (Gr es1 u) x y \/ linked (Gr es2 u) x y.
Proof.
  unfold linked. cbn [g_edges]. split.
  - intros (e & He & E). apply in_app_or in He as [He|He]; [left|right]; exists e; auto.
  - intros [(e & He & E)|(e & He & E)]; exists e; (split; [apply in_or_app; auto|exact E]).
Qed.
Lemma linked_unit es u v x y : linked (Gr es u) x y <-> linked (Gr es v) x y.
Proof. reflexivity. Qed.
(** the relation of a copy of all the works *)
Lemma copy_linked ren w u x y : project w ->
  (linked (Gr (restored_edges ren w []) u) x y <-> image ren (linked (wg_graph w)) x y).
Proof.
  intros H. rewrite (restored_linked ren w [] u x y H). unfold image.
  split; intros (a & b & E1 & E2 & K); exists a, b; (split; [exact E1|]; split; [exact E2|]).
  - tauto.
  - split; [exact K|]. simpl. auto.
Qed.
(** ** The edges of each node in a copy *)
Lemma filter_map_rename ren k l (Hk : forall e, In e l -> Nat.eqb (ren (e_to e)) (ren k) = Nat.eqb (e_to e) k) :
  filter (fun e => Nat.eqb (e_to e) (ren k)) (map (rename_edge ren) l) = map (rename_edge ren) (filter (fun e => Nat.eqb (e_to e) k) l).
Proof.
  induction l as [|e l IH]; [reflexivity|]. cbn [map filter]. cbn [rename_edge e_to]. rewrite (Hk e (or_introl eq_refl)).
  rewrite IH by (intros x Hx; apply Hk; right; exact Hx). destruct (Nat.eqb (e_to e) k); reflexivity.
Qed.
Lemma restored_edges_to ren w u n : project w -> one_to_one ren (wg_nodes w) -> In n (wg_nodes w) ->
  edges_to (Gr (restored_edges ren w []) u) (ren n) = map (rename_edge ren) (edges_to (wg_graph w) n).
Proof.
  intros H Hi Hn. unfold edges_to at 1. cbn [g_edges]. rewrite restored_alt.
  assert (E0 : filter (kept_edge []) (g_edges (wg_graph w)) = g_edges (wg_graph w)) by (apply filter_all; reflexivity).
  rewrite E0. change (fun n => filter (fun e => Nat.eqb (e_to e) n) (g_edges (wg_graph w))) with (edges_to (wg_graph w)).
  rewrite filter_map_rename.
  - rewrite (edges_to_concat (wg_graph w) n (wg_nodes w) (pj_nodup w H)). apply mem_in in Hn. rewrite Hn. reflexivity.
  - intros e He. apply in_concat in He as (l & Hl & He). apply in_map_iff in Hl as (m & <- & Hm). apply edges_to_in in He as [He Em].
    destruct (Nat.eqb_spec (e_to e) n) as [->|Ne]; [apply Nat.eqb_refl|]. apply Nat.eqb_neq. intros K. apply Ne. apply Hi; [rewrite Em; exact Hm|exact Hn|exact K].
Qed.

(** ** Inserting a graph *)
Definition inner_linked (w : work_graph) (a b : nat) : Prop :=
  linked (wg_graph w) a b /\ ~ In a [wg_start w; wg_finish w] /\ ~ In b [wg_start w; wg_finish w].
Lemma inner_in w x : In x (inner w) <-> In x (wg_nodes w) /\ ~ In x [wg_start w; wg_finish w].
Proof.
  unfold inner. rewrite filter_In, andb_true_iff, !negb_true_iff, !Nat.eqb_neq. simpl. intuition congruence.
Qed.
Lemma inner_path w s t : project w -> s <> wg_start w -> t <> wg_finish w -> path (linked (wg_graph w)) s t -> path (inner_linked w) s t.
Proof.
  intros H Hs Ht P. apply clos_trans_t1n in P. induction P as [s t L|s c t L _ IH].
  - apply t_step. split; [exact L|]. assert (K1 := start_first w s H). assert (K2 := finish_last w t H). simpl.
    split; (intros [E|[E|[]]]; subst; auto).
  - assert (K1 := start_first w s H). assert (K2 := finish_last w c H).
    assert (P2 : path (inner_linked w) c t) by (apply IH; [intros E; subst; auto|exact Ht]).
    eapply t_trans; [|exact P2]. apply t_step. split; [exact L|]. split.
    + simpl. intros [E|[E|[]]]; subst; auto.
    + destruct (path_first _ _ _ P2) as (d & (_ & Hd & _) & _). exact Hd.
Qed.
Lemma inner_path_sub w s t : path (inner_linked w) s t -> path (linked (wg_graph w)) s t.
Proof. apply path_mono. intros x y [L _]. exact L. Qed.
(** every inner work comes after an opening one and before a closing one *)
Lemma inner_opening w s : project w -> In s (inner w) -> exists t, linked (wg_graph w) (wg_start w) t /\ path0 (inner_linked w) t s.
Proof.
  intros H Hs. apply inner_in in Hs as [Hs Hn]. assert (P := from_start w s H Hs). apply path0_path in P as [E|P]; [exfalso; apply Hn; left; exact E|].
  apply path_first in P as (t & L & P). exists t. split; [exact L|]. apply path0_path in P as [->|P]; [apply rt_refl|].
  apply path_path0. apply inner_path; [exact H| | |exact P].
  - intros ->. exact (start_first w _ H L).
  - intros ->. apply Hn. right. left. reflexivity.
Qed.
Lemma inner_closing w s : project w -> In s (inner w) -> exists t, linked (wg_graph w) t (wg_finish w) /\ path0 (inner_linked w) s t.
Proof.
  intros H Hs. apply inner_in in Hs as [Hs Hn]. assert (P := to_finish w s H Hs). apply path0_path in P as [E|P]; [exfalso; apply Hn; right; left; auto|].
  apply path_last in P as (t & P & L). exists t. split; [exact L|]. apply path0_path in P as [->|P]; [apply rt_refl|].
  apply path_path0. apply inner_path; [exact H| | |exact P].
  - intros ->. apply Hn. left. reflexivity.
  - intros ->. exact (finish_last w _ H L).
Qed.
Section Insertion.
  Variables renM renS : nat -> nat.
  Variables (M S : work_graph) (ms mf : nat).
  Hypothesis PM : project M.
  Hypothesis PS : project S.
  Hypothesis Hms : In ms (wg_nodes M).
  Hypothesis Hmf : In mf (wg_nodes M).
  Hypothesis Hback : ~ precedes_or_is M mf ms.
  Hypothesis Hinner : inner S <> [].
  Hypothesis Hdirect : ~ linked (wg_graph S) (wg_start S) (wg_finish S).
  Hypothesis HiM : one_to_one renM (wg_nodes M).
  Hypothesis HiS : one_to_one renS (inner S).
  Hypothesis Hdis : forall a s, In a (wg_nodes M) -> In s (inner S) -> renM a <> renS s.

  Let ex := [wg_start S; wg_finish S].
  Let en x y := x = renM ms /\ exists t, linked (wg_graph S) (wg_start S) t /\ y = renS t.
  Let xt x y := y = renM mf /\ exists t, linked (wg_graph S) t (wg_finish S) /\ x = renS t.
  Let RM := image renM (linked (wg_graph M)).
  Let RS := image renS (inner_linked S).
  Let isM x := In x (map renM (wg_nodes M)).
  Let isS x := In x (map renS (inner S)).

  Lemma ins_start_inner t : linked (wg_graph S) (wg_start S) t -> In t (inner S).
  Proof.
    intros L. apply inner_in. split; [apply (pj_closed S PS _ _ L)|]. intros [E|[E|[]]]; subst t; [exact (start_first S _ PS L)|exact (Hdirect L)].
  Qed.
  Lemma ins_finish_inner t : linked (wg_graph S) t (wg_finish S) -> In t (inner S).
  Proof.
    intros L. apply inner_in. split; [apply (pj_closed S PS _ _ L)|]. intros [E|[E|[]]]; subst t; [exact (Hdirect L)|exact (finish_last S _ PS L)].
  Qed.
  Lemma ins_inner_closed a b : inner_linked S a b -> In a (inner S) /\ In b (inner S).
  Proof. intros (L & H1 & H2). rewrite !inner_in. destruct (pj_closed S PS _ _ L). auto. Qed.
  Lemma ins_HM x y : RM x y -> isM x /\ isM y.
  Proof. intros (a & b & <- & <- & L). destruct (pj_closed M PM _ _ L). split; apply in_map; assumption. Qed.
  Lemma ins_HS x y : RS x y -> isS x /\ isS y.
  Proof. intros (a & b & <- & <- & L). destruct (ins_inner_closed _ _ L). split; apply in_map; assumption. Qed.
  Lemma ins_HEn x y : en x y -> isM x /\ isS y.
  Proof. intros (-> & t & L & ->). split; apply in_map; [exact Hms|apply ins_start_inner; exact L]. Qed.
  Lemma ins_HEx x y : xt x y -> isS x /\ isM y.
  Proof. intros (-> & t & L & ->). split; apply in_map; [apply ins_finish_inner; exact L|exact Hmf]. Qed.
  Lemma ins_disjoint x : isM x -> isS x -> False.
  Proof. intros H1 H2. apply in_map_iff in H1 as (a & <- & Ha). apply in_map_iff in H2 as (s & E & Hs). exact (Hdis a s Ha Hs (eq_sym E)). Qed.
  Lemma ins_back a s t b : en a s -> xt t b -> ~ path0 RM b a.
  Proof.
    intros (-> & _) (-> & _) P. apply Hback. apply path0_poi.
    apply (image_path0_iff renM _ (wg_nodes M) mf ms HiM (pj_closed M PM) Hmf Hms). exact P.
  Qed.
  Definition ins_edges : list edge :=
    restored_edges renM M [] ++ restored_edges renS S ex
    ++ map (fun e => Ed (renM ms) (renS (e_to e)) 0%Z FS) (edges_from (wg_graph S) (wg_start S))
    ++ map (fun e => Ed (renS (e_from e)) (renM mf) 0%Z FS) (edges_to (wg_graph S) (wg_finish S)).
  Definition ins_unit := copied_unit renM M (copied_unit renS S (fun _ => no_unit)).
  Lemma ins_linked x y : linked (Gr ins_edges ins_unit) x y <-> spliced RM RS en xt x y.
  Proof.
    unfold ins_edges. rewrite !linked_app. rewrite (copy_linked renM M _ _ _ PM), (restored_linked renS S _ _ _ _ PS).
    unfold spliced. fold RM. fold ex. change (image renS (fun a b => linked (wg_graph S) a b /\ ~ In a ex /\ ~ In b ex)) with RS.
    assert (E1 : linked (Gr (map (fun e => Ed (renM ms) (renS (e_to e)) 0%Z FS) (edges_from (wg_graph S) (wg_start S))) ins_unit) x y <-> en x y).
    { split.
      - intros (e & He & <- & <-). cbn [g_edges] in He. apply in_map_iff in He as (e0 & <- & He). apply edges_from_in in He as [He E].
        split; [reflexivity|]. exists (e_to e0). split; [exists e0; auto|reflexivity].
      - intros (-> & t & (e & He & E1 & E2) & ->). eexists. split; [cbn [g_edges]; apply in_map; apply edges_from_in; split; [exact He|exact E1]|].
        cbn. rewrite E2. auto. }
    assert (E2 : linked (Gr (map (fun e => Ed (renS (e_from e)) (renM mf) 0%Z FS) (edges_to (wg_graph S) (wg_finish S))) ins_unit) x y <-> xt x y).
    { split.
      - intros (e & He & <- & <-). cbn [g_edges] in He. apply in_map_iff in He as (e0 & <- & He). apply edges_to_in in He as [He E].
        split; [reflexivity|]. exists (e_from e0). split; [exists e0; auto|reflexivity].
      - intros (-> & t & (e & He & E3 & E4) & ->). eexists. split; [cbn [g_edges]; apply in_map; apply edges_to_in; split; [exact He|exact E4]|].
        cbn. rewrite E3. auto. }
    rewrite E1, E2. tauto.
  Qed.
  Lemma ins_path x y : path (linked (Gr ins_edges ins_unit)) x y <-> splice_path RM RS en xt isM isS x y.
  Proof.
    rewrite <- (spliced_path RM RS en xt isM isS ins_HM ins_HS ins_HEn ins_HEx ins_disjoint ins_back x y).
    split; apply path_mono; intros a b; apply ins_linked.
  Qed.
  Definition ins_nodes := map renM (wg_nodes M) ++ map renS (inner S).
  Lemma ins_acyclic : acyclic (linked (Gr ins_edges ins_unit)).
  Proof.
    assert (K : acyclic (spliced RM RS en xt)).
    { apply (spliced_acyclic RM RS en xt isM isS ins_HM ins_HS ins_HEn ins_HEx ins_disjoint ins_back).
      - apply (image_acyclic renM _ (wg_nodes M) HiM (pj_closed M PM) (pj_acyclic M PM)).
      - apply (image_acyclic renS _ (inner S) HiS ins_inner_closed). intros x P. apply (pj_acyclic S PS x). apply inner_path_sub. exact P. }
    intros x P. apply (K x). eapply path_mono; [|exact P]. intros a b. apply ins_linked.
  Qed.
  Lemma ins_closed x y : linked (Gr ins_edges ins_unit) x y -> In x ins_nodes /\ In y ins_nodes.
  Proof.
    rewrite ins_linked. unfold ins_nodes. intros [E|[E|[E|E]]].
    - apply ins_HM in E as [? ?]. split; apply in_or_app; auto.
    - apply ins_HS in E as [? ?]. split; apply in_or_app; auto.
    - apply ins_HEn in E as [? ?]. split; apply in_or_app; auto.
    - apply ins_HEx in E as [? ?]. split; apply in_or_app; auto.
  Qed.
  Lemma inner_nodup : NoDup (inner S).
  Proof. unfold inner. apply NoDup_filter. apply (pj_nodup S PS). Qed.
  Lemma ins_nodup : NoDup ins_nodes.
  Proof.
    apply NoDup_app_intro.
    - apply NoDup_map_inj; [exact HiM|apply (pj_nodup M PM)].
    - apply NoDup_map_inj; [exact HiS|apply inner_nodup].
    - intros x H1 H2. exact (ins_disjoint x H1 H2).
  Qed.
  Lemma ins_single_start : single_start (Gr ins_edges ins_unit) ins_nodes (renM (wg_start M)).
  Proof.
    split; [apply in_or_app; left; apply in_map; apply (pj_start M PM)|]. intros x Hx. apply in_app_or in Hx as [Hx|Hx].
    - apply in_map_iff in Hx as (a & <- & Ha). destruct (proj2 (pj_start M PM) a Ha) as [->|(p & L)]; [auto|]. right. exists (renM p).
      apply ins_linked. left. exists p, a. auto.
    - apply in_map_iff in Hx as (s & <- & Hs). right. assert (Hs' := Hs). apply inner_in in Hs' as [Hs1 Hs2].
      destruct (proj2 (pj_start S PS) s Hs1) as [E|(p & L)]; [exfalso; apply Hs2; left; auto|].
      destruct (Nat.eq_dec p (wg_start S)) as [->|Np].
      + exists (renM ms). apply ins_linked. right; right; left. split; [reflexivity|]. exists s. auto.
      + exists (renS p). apply ins_linked. right; left. exists p, s. split; [reflexivity|]. split; [reflexivity|]. split; [exact L|]. split; [|exact Hs2].
        simpl. intros [E|[E|[]]]; [auto|]. subst p. exact (finish_last S _ PS L).
  Qed.
  Lemma ins_single_finish : single_finish (Gr ins_edges ins_unit) ins_nodes (renM (wg_finish M)).
  Proof.
    split; [apply in_or_app; left; apply in_map; apply (pj_finish M PM)|]. intros x Hx. apply in_app_or in Hx as [Hx|Hx].
    - apply in_map_iff in Hx as (a & <- & Ha). destruct (proj2 (pj_finish M PM) a Ha) as [->|(p & L)]; [auto|]. right. exists (renM p).
      apply ins_linked. left. exists a, p. auto.
    - apply in_map_iff in Hx as (s & <- & Hs). right. assert (Hs' := Hs). apply inner_in in Hs' as [Hs1 Hs2].
      destruct (proj2 (pj_finish S PS) s Hs1) as [E|(p & L)]; [exfalso; apply Hs2; right; left; auto|].
      destruct (Nat.eq_dec p (wg_finish S)) as [->|Np].
      + exists (renM mf). apply ins_linked. right; right; right. split; [reflexivity|]. exists s. auto.
      + exists (renS p). apply ins_linked. right; left. exists s, p. split; [reflexivity|]. split; [reflexivity|]. split; [exact L|]. split; [exact Hs2|].
        simpl. intros [E|[E|[]]]; [|auto]. subst p. exact (start_first S _ PS L).
  Qed.
  Lemma ins_runs : graph_insertion renM renS M ms mf S = Some (make_work_graph (Gr ins_edges ins_unit) (renM (wg_start M)) (renM (wg_finish M))).
  Proof.
    unfold graph_insertion. rewrite (prepare_copy_all renM M PM). unfold prepare_copy.
    assert (Ei : forall x, In x (filter (fun n => negb (mem n [wg_start S; wg_finish S])) (wg_nodes S)) <-> In x (inner S)).
    { intros x. rewrite filter_In, inner_in, negb_true_iff, mem_nin. reflexivity. }
    destruct (filter (fun n => negb (mem n [wg_start S; wg_finish S])) (wg_nodes S)) as [|i0 il] eqn:Ef.
    { exfalso. apply Hinner. apply incl_l_nil. intros z Hz. destruct (proj2 (Ei z) Hz). }
    rewrite <- Ef in *. clear Ef i0 il.
    rewrite (proj2 (mem_in ms _) Hms), (proj2 (mem_in mf _) Hmf). cbn [andb].
    rewrite (proj2 (forallb_forall _ (edges_from (wg_graph S) (wg_start S)))).
    2:{ intros e He. apply mem_in, Ei, ins_start_inner. apply edges_from_in in He as [He E]. exists e. auto. }
    rewrite (proj2 (forallb_forall _ (edges_to (wg_graph S) (wg_finish S)))).
    2:{ intros e He. apply mem_in, Ei, ins_finish_inner. apply edges_to_in in He as [He E]. exists e. auto. }
    cbn [andb]. unfold rebuild_graph. rewrite (proj2 (mem_in _ _) (proj1 (pj_start M PM))), (proj2 (mem_in _ _) (proj1 (pj_finish M PM))). reflexivity.
  Qed.
  Lemma ins_pathM a b : In a (wg_nodes M) -> In b (wg_nodes M) ->
    (path (linked (Gr ins_edges ins_unit)) (renM a) (renM b)
     <-> precedes M a b \/ precedes_or_is M a ms /\ precedes_or_is M mf b).
  Proof.
    intros Ha Hb. rewrite ins_path. unfold splice_path.
    assert (Ka : isM (renM a)) by (apply in_map; exact Ha). assert (Kb : isM (renM b)) by (apply in_map; exact Hb).
    assert (Na := ins_disjoint _ Ka). assert (Nb := ins_disjoint _ Kb).
    assert (E1 : path RM (renM a) (renM b) <-> precedes M a b) by (apply (image_path_iff renM _ (wg_nodes M) a b HiM (pj_closed M PM) Ha Hb)).
    assert (E2 : path0 RM (renM a) (renM ms) <-> precedes_or_is M a ms).
    { rewrite <- path0_poi. apply (image_path0_iff renM _ (wg_nodes M) a ms HiM (pj_closed M PM) Ha Hms). }
    assert (E3 : path0 RM (renM mf) (renM b) <-> precedes_or_is M mf b).
    { rewrite <- path0_poi. apply (image_path0_iff renM _ (wg_nodes M) mf b HiM (pj_closed M PM) Hmf Hb). }
    rewrite E1, <- E2, <- E3. split.
    - intros [(_ & _ & [H|(x & s & t & y & H1 & (-> & _) & _ & (-> & _) & H5)])|[(_ & H & _)|[(H & _)|(H & _)]]]; [auto|auto|tauto|tauto|tauto].
    - intros [H|[H1 H2]]; left; (split; [exact Ka|]; split; [exact Kb|]); [auto|]. right.
      destruct (inner S) as [|s0 r] eqn:Ei; [congruence|]. assert (Hs0 : In s0 (inner S)) by (rewrite Ei; left; reflexivity).
      destruct (inner_opening S s0 PS Hs0) as (o & Lo & Po). destruct (inner_closing S s0 PS Hs0) as (c & Lc & Pc).
      exists (renM ms), (renS o), (renS c), (renM mf). split; [exact H1|]. split; [split; [reflexivity|]; exists o; auto|].
      split; [|split; [split; [reflexivity|]; exists c; auto|exact H2]].
      assert (P : path0 (inner_linked S) o c) by (eapply rt_trans; eauto). apply path0_iff. apply path0_iff in P as [->|P]; [auto|]. right. apply image_path. exact P.
  Qed.
  Lemma ins_pathMS a s : In a (wg_nodes M) -> In s (inner S) ->
    (path (linked (Gr ins_edges ins_unit)) (renM a) (renS s) <-> precedes_or_is M a ms).
  Proof.
    intros Ha Hs. rewrite ins_path. unfold splice_path.
    assert (Ka : isM (renM a)) by (apply in_map; exact Ha). assert (Ks : isS (renS s)) by (apply in_map; exact Hs).
    assert (Na := ins_disjoint _ Ka). assert (Ns : ~ isM (renS s)) by (intros K; exact (ins_disjoint _ K Ks)).
    assert (E2 : path0 RM (renM a) (renM ms) <-> precedes_or_is M a ms).
    { rewrite <- path0_poi. apply (image_path0_iff renM _ (wg_nodes M) a ms HiM (pj_closed M PM) Ha Hms). }
    rewrite <- E2. split.
    - intros [(_ & H & _)|[(_ & _ & x & y & H1 & (-> & _) & _)|[(H & _)|(H & _)]]]; tauto.
    - intros H. right; left. split; [exact Ka|]. split; [exact Ks|]. destruct (inner_opening S s PS Hs) as (o & Lo & Po).
      exists (renM ms), (renS o). split; [exact H|]. split; [split; [reflexivity|]; exists o; auto|].
      apply path0_iff. apply path0_iff in Po as [->|P]; [auto|]. right. apply image_path. exact P.
  Qed.
  Lemma ins_pathSM s b : In s (inner S) -> In b (wg_nodes M) ->
    (path (linked (Gr ins_edges ins_unit)) (renS s) (renM b) <-> precedes_or_is M mf b).
  Proof.
    intros Hs Hb. rewrite ins_path. unfold splice_path.
    assert (Kb : isM (renM b)) by (apply in_map; exact Hb). assert (Ks : isS (renS s)) by (apply in_map; exact Hs).
    assert (Nb := ins_disjoint _ Kb). assert (Ns : ~ isM (renS s)) by (intros K; exact (ins_disjoint _ K Ks)).
    assert (E3 : path0 RM (renM mf) (renM b) <-> precedes_or_is M mf b).
    { rewrite <- path0_poi. apply (image_path0_iff renM _ (wg_nodes M) mf b HiM (pj_closed M PM) Hmf Hb). }
    rewrite <- E3. split.
    - intros [(H & _)|[(H & _)|[(_ & _ & x & y & _ & (-> & _) & H3)|(_ & H & _)]]]; tauto.
    - intros H. right; right; left. split; [exact Ks|]. split; [exact Kb|]. destruct (inner_closing S s PS Hs) as (c & Lc & Pc).
      exists (renS c), (renM mf). split; [|split; [split; [reflexivity|]; exists c; auto|exact H]].
      apply path0_iff. apply path0_iff in Pc as [->|P]; [auto|]. right. apply image_path. exact P.
  Qed.
  Lemma ins_pathSS s t : In s (inner S) -> In t (inner S) ->
    (path (linked (Gr ins_edges ins_unit)) (renS s) (renS t) <-> precedes S s t).
  Proof.
    intros Hs Ht. rewrite ins_path. unfold splice_path.
    assert (Ks : isS (renS s)) by (apply in_map; exact Hs). assert (Kt : isS (renS t)) by (apply in_map; exact Ht).
    assert (Ns : ~ isM (renS s)) by (intros K; exact (ins_disjoint _ K Ks)). assert (Nt : ~ isM (renS t)) by (intros K; exact (ins_disjoint _ K Kt)).
    assert (E : path RS (renS s) (renS t) <-> precedes S s t).
    { unfold RS. rewrite (image_path_iff renS _ (inner S) s t HiS ins_inner_closed Hs Ht). split; [apply inner_path_sub|].
      apply inner_in in Hs as [_ Hs]. apply inner_in in Ht as [_ Ht]. apply inner_path; [exact PS| |]; intros ->; simpl in *; tauto. }
    rewrite <- E. tauto.
  Qed.
  Lemma ins_edges_perm : Permutation ins_edges
    (map (rename_edge renM) (g_edges (wg_graph M))
     ++ map (rename_edge renS) (filter (fun e => mem (e_from e) (inner S) && mem (e_to e) (inner S)) (g_edges (wg_graph S)))
     ++ map (fun e => Ed (renM ms) (renS (e_to e)) 0%Z FS) (edges_from (wg_graph S) (wg_start S))
     ++ map (fun e => Ed (renS (e_from e)) (renM mf) 0%Z FS) (edges_to (wg_graph S) (wg_finish S))).
  Proof.
    unfold ins_edges. apply Permutation_app; [|apply Permutation_app_tail].
    - eapply Permutation_trans; [apply (restored_perm renM M [] PM)|]. rewrite filter_all; [apply Permutation_refl|reflexivity].
    - eapply Permutation_trans; [apply (restored_perm renS S ex PS)|]. apply Permutation_map.
      rewrite (filter_ext_in (kept_edge ex) (fun e => mem (e_from e) (inner S) && mem (e_to e) (inner S))); [apply Permutation_refl|].
      intros e He. assert (L : linked (wg_graph S) (e_from e) (e_to e)) by (exists e; auto). destruct (pj_closed S PS _ _ L) as [H1 H2].
      assert (K : forall x, In x (wg_nodes S) -> negb (mem x ex) = mem x (inner S)).
      { intros x Hx. destruct (mem x (inner S)) eqn:E; [apply mem_in, inner_in in E as [_ E]; apply mem_nin in E; fold ex in E; rewrite E; reflexivity|].
        apply negb_false_iff. apply mem_nin in E. rewrite inner_in in E. destruct (mem x ex) eqn:E2; [reflexivity|]. apply mem_nin in E2. exfalso. apply E. auto. }
      unfold kept_edge. rewrite (K _ H1), (K _ H2). reflexivity.
  Qed.
End Insertion.

(** ** Growing a graph *)
Lemma grow g ren M extra (RS En Ex : nat -> nat -> Prop) :
  let RM := image ren (linked (wg_graph M)) in
  let isM x := In x (map ren (wg_nodes M)) in
  let isS x := In x extra in
  project M -> one_to_one ren (wg_nodes M) ->
  (forall x y, linked g x y <-> spliced RM RS En Ex x y) ->
  (forall x y, RS x y -> isS x /\ isS y) -> acyclic RS ->
  (forall x y, En x y -> isM x /\ isS y) -> (forall x y, Ex x y -> isS x /\ isM y) ->
  (forall x, isM x -> isS x -> False) -> NoDup extra ->
  (forall a s t b, En a s -> Ex t b -> ~ path0 RM b a) ->
  (forall s, isS s -> exists p, RS p s \/ En p s) ->
  acyclic (linked g) /\ (forall x y, linked g x y -> In x (map ren (wg_nodes M) ++ extra) /\ In y (map ren (wg_nodes M) ++ extra))
  /\ NoDup (map ren (wg_nodes M) ++ extra) /\ single_start g (map ren (wg_nodes M) ++ extra) (ren (wg_start M))
  /\ ((forall s, isS s -> exists c, RS s c \/ Ex s c) -> single_finish g (map ren (wg_nodes M) ++ extra) (ren (wg_finish M)))
  /\ (forall x y, path (linked g) x y <-> splice_path RM RS En Ex isM isS x y).
Proof.
  intros RM isM isS PM Hi HL HS HaS HEn HEx Hd Hn Hb Hp.
  assert (HM : forall x y, RM x y -> isM x /\ isM y).
  { intros x y (a & b & <- & <- & L). destruct (pj_closed M PM _ _ L). split; apply in_map; assumption. }
  assert (HaM : acyclic RM) by apply (image_acyclic ren _ (wg_nodes M) Hi (pj_closed M PM) (pj_acyclic M PM)).
  split; [|split; [|split; [|split; [|split]]]].
  - intros x P. apply (spliced_acyclic RM RS En Ex isM isS HM HS HEn HEx Hd Hb HaM HaS x). eapply path_mono; [|exact P]. intros a b. apply HL.
  - intros x y. rewrite HL, !in_app_iff. intros [E|[E|[E|E]]].
    + apply HM in E. tauto.
    + apply HS in E. tauto.
    + apply HEn in E. tauto.
    + apply HEx in E. tauto.
  - apply NoDup_app_intro; [apply NoDup_map_inj; [exact Hi|apply (pj_nodup M PM)]|exact Hn|]. intros x H1 H2. exact (Hd x H1 H2).
  - split; [apply in_or_app; left; apply in_map; apply (pj_start M PM)|]. intros x Hx. apply in_app_or in Hx as [Hx|Hx].
    + apply in_map_iff in Hx as (a & <- & Ha). destruct (proj2 (pj_start M PM) a Ha) as [->|(p & L)]; [auto|]. right. exists (ren p).
      apply HL. left. exists p, a. auto.
    + right. destruct (Hp x Hx) as (p & K). exists p. apply HL. unfold spliced. tauto.
  - intros Hc. split; [apply in_or_app; left; apply in_map; apply (pj_finish M PM)|]. intros x Hx. apply in_app_or in Hx as [Hx|Hx].
    + apply in_map_iff in Hx as (a & <- & Ha). destruct (proj2 (pj_finish M PM) a Ha) as [->|(p & L)]; [auto|]. right. exists (ren p).
      apply HL. left. exists a, p. auto.
    + right. destruct (Hc x Hx) as (p & K). exists p. apply HL. unfold spliced. tauto.
  - intros x y. rewrite <- (spliced_path RM RS En Ex isM isS HM HS HEn HEx Hd Hb x y). split; apply path_mono; intros a b; apply HL.
Qed.
Lemma image_poi ren M a b : project M -> one_to_one ren (wg_nodes M) -> In a (wg_nodes M) -> In b (wg_nodes M) ->
  (path0 (image ren (linked (wg_graph M))) (ren a) (ren b) <-> precedes_or_is M a b).
Proof. intros PM Hi Ha Hb. rewrite <- path0_poi. apply (image_path0_iff ren _ (wg_nodes M) a b Hi (pj_closed M PM) Ha Hb). Qed.
Lemma image_pre ren M a b : project M -> one_to_one ren (wg_nodes M) -> In a (wg_nodes M) -> In b (wg_nodes M) ->
  (path (image ren (linked (wg_graph M))) (ren a) (ren b) <-> precedes M a b).
Proof. intros PM Hi Ha Hb. apply (image_path_iff ren _ (wg_nodes M) a b Hi (pj_closed M PM) Ha Hb). Qed.
Lemma path0_none a b : path0 (fun _ _ => False) a b -> a = b.
Proof. rewrite path0_iff. intros [->|P]; [reflexivity|]. apply path_first in P as (c & [] & _). Qed.

(** ** Inserting one work *)
Definition link_nodes (l : links) : list nat := match l with Nodes ns => ns | Tuples ts => map (fun t => fst (fst t)) ts end.
Lemma reduce_links_nodes l ts : reduce_links l = Some ts -> map (fun t => fst (fst t)) ts = link_nodes l.
Proof. destruct l as [[|n ns]|[|t l]]; intros [= <-]; [|reflexivity]. cbn. f_equal. rewrite map_map. cbn. apply map_id. Qed.
Lemma reduce_links_some l : link_nodes l <> [] -> exists ts, reduce_links l = Some ts.
Proof. destruct l as [[|n ns]|[|t l]]; cbn; intros H; try congruence; eauto. Qed.
Section InsertWork.
  Variables (ren : nat -> nat) (M : work_graph) (new : nat) (unit : work_unit).
  Variables (ps cs : list (nat * Z * edge_type)).
  Let src (x : nat * Z * edge_type) : nat := fst (fst x).
  Hypothesis PM : project M.
  Hypothesis Hi : one_to_one ren (wg_nodes M).
  Hypothesis Hps : forall x, In x (map src ps) -> In x (wg_nodes M).
  Hypothesis Hcs : forall x, In x (map src cs) -> In x (wg_nodes M).
  Hypothesis Hpne : ps <> [].
  Hypothesis Hcne : cs <> [].
  Hypothesis Hback : forall p c, In p (map src ps) -> In c (map src cs) -> ~ precedes_or_is M c p.
  Hypothesis Hfresh : ~ In new (map ren (wg_nodes M)).
  Definition iw_edges : list edge :=
    restored_edges ren M [] ++ map (fun x => Ed (ren (fst (fst x))) new (snd (fst x)) (snd x)) ps
      ++ map (fun x => Ed new (ren (fst (fst x))) (snd (fst x)) (snd x)) cs.
  Definition iw_unit (m : nat) := if Nat.eqb m new then unit else copied_unit ren M (fun _ => no_unit) m.
  Let En x y := y = new /\ exists p, In p (map src ps) /\ x = ren p.
  Let Ex x y := x = new /\ exists c, In c (map src cs) /\ y = ren c.
  Lemma iw_linked x y : linked (Gr iw_edges iw_unit) x y <-> spliced (image ren (linked (wg_graph M))) (fun _ _ => False) En Ex x y.
  Proof.
    unfold iw_edges. rewrite !linked_app, (copy_linked ren M _ _ _ PM).
    assert (E1 : linked (Gr (map (fun x => Ed (ren (fst (fst x))) new (snd (fst x)) (snd x)) ps) iw_unit) x y <-> En x y).
    { split.
      - intros (e & He & <- & <-). cbn [g_edges] in He. apply in_map_iff in He as (t & <- & Ht). split; [reflexivity|].
        exists (src t). split; [apply in_map; exact Ht|reflexivity].
      - intros (-> & p & Hp & ->). apply in_map_iff in Hp as (t & <- & Ht). eexists. split; [cbn [g_edges]; apply in_map; exact Ht|]. split; reflexivity. }
    assert (E2 : linked (Gr (map (fun x => Ed new (ren (fst (fst x))) (snd (fst x)) (snd x)) cs) iw_unit) x y <-> Ex x y).
    { split.
      - intros (e & He & <- & <-). cbn [g_edges] in He. apply in_map_iff in He as (t & <- & Ht). split; [reflexivity|].
        exists (src t). split; [apply in_map; exact Ht|reflexivity].
      - intros (-> & p & Hp & ->). apply in_map_iff in Hp as (t & <- & Ht). eexists. split; [cbn [g_edges]; apply in_map; exact Ht|]. split; reflexivity. }
    rewrite E1, E2. unfold spliced. tauto.
  Qed.
  Lemma iw_grow :
    acyclic (linked (Gr iw_edges iw_unit))
    /\ (forall x y, linked (Gr iw_edges iw_unit) x y -> In x (map ren (wg_nodes M) ++ [new]) /\ In y (map ren (wg_nodes M) ++ [new]))
    /\ NoDup (map ren (wg_nodes M) ++ [new]) /\ single_start (Gr iw_edges iw_unit) (map ren (wg_nodes M) ++ [new]) (ren (wg_start M))
    /\ single_finish (Gr iw_edges iw_unit) (map ren (wg_nodes M) ++ [new]) (ren (wg_finish M))
    /\ (forall a b, In a (wg_nodes M) -> In b (wg_nodes M) ->
         (path (linked (Gr iw_edges iw_unit)) (ren a) (ren b)
          <-> precedes M a b \/ exists p c, In p (map src ps) /\ In c (map src cs) /\ precedes_or_is M a p /\ precedes_or_is M c b))
    /\ (forall a, In a (wg_nodes M) -> (path (linked (Gr iw_edges iw_unit)) (ren a) new <-> exists p, In p (map src ps) /\ precedes_or_is M a p))
    /\ (forall b, In b (wg_nodes M) -> (path (linked (Gr iw_edges iw_unit)) new (ren b) <-> exists c, In c (map src cs) /\ precedes_or_is M c b)).
  Proof.
    destruct (grow (Gr iw_edges iw_unit) ren M [new] (fun _ _ => False) En Ex) as (G1 & G2 & G3 & G4 & G5 & G6).
    - exact PM.
    - exact Hi.
    - exact iw_linked.
    - intros x y [].
    - intros x P. apply path_first in P as (c & [] & _).
    - intros x y (-> & p & Hp & ->). split; [apply in_map; auto|left; reflexivity].
    - intros x y (-> & p & Hp & ->). split; [left; reflexivity|apply in_map; auto].
    - intros x H1 [<-|[]]. auto.
    - constructor; [intros []|constructor].
    - intros a s t b (-> & p & Hp & ->) (-> & c & Hc & ->) P. apply (image_poi ren M c p PM Hi (Hcs c Hc) (Hps p Hp)) in P. exact (Hback p c Hp Hc P).
    - intros s [<-|[]]. destruct ps as [|p0 r]; [congruence|]. exists (ren (src p0)). right. split; [reflexivity|]. exists (src p0). split; [left; reflexivity|reflexivity].
    - split; [exact G1|]. split; [exact G2|]. split; [exact G3|]. split; [exact G4|]. split.
      { apply G5. intros s [<-|[]]. destruct cs as [|p0 r]; [congruence|]. exists (ren (src p0)). right. split; [reflexivity|]. exists (src p0). split; [left; reflexivity|reflexivity]. }
      assert (Nn : forall a, In a (wg_nodes M) -> ~ In (ren a) [new]) by (intros a Ha [E|[]]; apply Hfresh; rewrite E; apply in_map; exact Ha).
      split; [|split].
      + intros a b Ha Hb. rewrite G6. unfold splice_path. assert (Na := Nn a Ha). assert (Nb := Nn b Hb). rewrite (image_pre ren M a b PM Hi Ha Hb). split.
        * intros [(_ & _ & [H|(x & s & t & y & H1 & (_ & p & Hp & ->) & _ & (_ & c & Hc & ->) & H5)])|[(_ & H & _)|[(H & _)|(H & _)]]]; [auto| |tauto|tauto|tauto].
          right. exists p, c. apply (image_poi ren M a p PM Hi Ha (Hps p Hp)) in H1. apply (image_poi ren M c b PM Hi (Hcs c Hc) Hb) in H5. auto.
        * intros K. left. split; [apply in_map; exact Ha|]. split; [apply in_map; exact Hb|]. destruct K as [H|(p & c & Hp & Hc & H1 & H2)]; [auto|].
          right. exists (ren p), new, new, (ren c). split; [apply (image_poi ren M a p PM Hi Ha (Hps p Hp)); exact H1|]. split; [split; [reflexivity|eauto]|].
          split; [apply rt_refl|]. split; [split; [reflexivity|eauto]|]. apply (image_poi ren M c b PM Hi (Hcs c Hc) Hb). exact H2.
      + intros a Ha. rewrite G6. unfold splice_path. assert (Na := Nn a Ha). split.
        * intros [(_ & H & _)|[(_ & _ & x & s & H1 & (_ & p & Hp & ->) & _)|[(H & _)|(H & _)]]]; [tauto| |tauto|tauto].
          exists p. split; [exact Hp|]. apply (image_poi ren M a p PM Hi Ha (Hps p Hp)). exact H1.
        * intros (p & Hp & H). right; left. split; [apply in_map; exact Ha|]. split; [left; reflexivity|]. exists (ren p), new.
          split; [apply (image_poi ren M a p PM Hi Ha (Hps p Hp)); exact H|]. split; [split; [reflexivity|eauto]|apply rt_refl].
      + intros b Hb. rewrite G6. unfold splice_path. assert (Nb := Nn b Hb). split.
        * intros [(H & _)|[(H & _)|[(_ & _ & t & y & _ & (_ & c & Hc & ->) & H)|(_ & H & _)]]]; [tauto|tauto| |tauto].
          exists c. split; [exact Hc|]. apply (image_poi ren M c b PM Hi (Hcs c Hc) Hb). exact H.
        * intros (c & Hc & H). right; right; left. split; [left; reflexivity|]. split; [apply in_map; exact Hb|]. exists new, (ren c).
          split; [apply rt_refl|]. split; [split; [reflexivity|eauto]|]. apply (image_poi ren M c b PM Hi (Hcs c Hc) Hb). exact H.
  Qed.
End InsertWork.

(** ** Obstructions *)
Section Obstruct.
  Variables (M I : work_graph) (at_node : nat) (pick : list nat -> nat).
  Hypothesis PM : project M.
  Hypothesis PI : project I.
  Hypothesis Hat : In at_node (wg_nodes M).
  Hypothesis Hdis : forall x, In x (wg_nodes M) -> ~ In x (wg_nodes I).
  Hypothesis Hpick : children (wg_graph M) at_node <> [] -> In (pick (children (wg_graph M) at_node)) (children (wg_graph M) at_node).
  Definition ob_graph : graph :=
    let g := wg_graph M in
    Gr (g_edges g ++ g_edges (wg_graph I) ++ [Ed at_node (wg_start I) 0%Z FS]
        ++ match children g at_node with [] => [] | cs => [Ed (wg_start I) (pick cs) 0%Z FS] end)
       (fun n => if mem n (wg_nodes I) then g_unit (wg_graph I) n else g_unit g n).
  Let En x y := x = at_node /\ y = wg_start I.
  Let Ex x y := x = wg_start I /\ children (wg_graph M) at_node <> [] /\ y = pick (children (wg_graph M) at_node).
  Lemma image_id (R : nat -> nat -> Prop) x y : image (fun n => n) R x y <-> R x y.
  Proof. split; [intros (a & b & <- & <- & H); exact H|intros H; exists x, y; auto]. Qed.
  Lemma ob_child_linked c : In c (children (wg_graph M) at_node) -> linked (wg_graph M) at_node c.
  Proof.
    intros H. unfold children in H. apply in_map_iff in H as (e & <- & He). apply filter_In in He as [He _]. apply edges_from_in in He as [He E]. exists e. auto.
  Qed.
  Lemma ob_linked x y : linked ob_graph x y <-> spliced (image (fun n => n) (linked (wg_graph M))) (linked (wg_graph I)) En Ex x y.
  Proof.
    unfold ob_graph, spliced. rewrite !linked_app, image_id.
    assert (E1 : forall u, linked (Gr [Ed at_node (wg_start I) 0%Z FS] u) x y <-> En x y).
    { intros u. split; [intros (e & [<-|[]] & <- & <-); split; reflexivity|intros (-> & ->)]. exists (Ed at_node (wg_start I) 0%Z FS). split; [left; reflexivity|auto]. }
    assert (E2 : forall u, linked (Gr (match children (wg_graph M) at_node with [] => [] | cs => [Ed (wg_start I) (pick cs) 0%Z FS] end) u) x y <-> Ex x y).
    { intros u. unfold Ex. destruct (children (wg_graph M) at_node) as [|c0 cl]; split.
      - intros (e & [] & _).
      - intros (_ & K & _). congruence.
      - intros (e & [<-|[]] & <- & <-). split; [reflexivity|]. split; [discriminate|reflexivity].
      - intros (-> & _ & ->). eexists. split; [left; reflexivity|]. split; reflexivity. }
    rewrite E1, E2. reflexivity.
  Qed.
  Lemma ob_back : forall a s t b, En a s -> Ex t b -> ~ path0 (image (fun n => n) (linked (wg_graph M))) b a.
  Proof.
    intros a s t b (-> & ->) (-> & K & ->) P. apply Hpick in K. apply ob_child_linked in K.
    apply (pj_acyclic M PM at_node). eapply path_path0_trans; [apply t_step; exact K|]. eapply path0_mono; [|exact P]. intros u v. apply image_id.
  Qed.
  Lemma ob_grow : acyclic (linked ob_graph)
    /\ (forall x y, linked ob_graph x y -> In x (wg_nodes M ++ wg_nodes I) /\ In y (wg_nodes M ++ wg_nodes I))
    /\ NoDup (wg_nodes M ++ wg_nodes I) /\ single_start ob_graph (wg_nodes M ++ wg_nodes I) (wg_start M)
    /\ (forall a b, In a (wg_nodes M) -> In b (wg_nodes M) -> (path (linked ob_graph) a b <-> precedes M a b))
    /\ (forall a s, In a (wg_nodes M) -> In s (wg_nodes I) -> (path (linked ob_graph) a s <-> precedes_or_is M a at_node))
    /\ (forall s t, In s (wg_nodes I) -> In t (wg_nodes I) -> (path (linked ob_graph) s t <-> precedes I s t))
    /\ (forall s b, In s (wg_nodes I) -> In b (wg_nodes M) -> (path (linked ob_graph) s b <->
          s = wg_start I /\ children (wg_graph M) at_node <> [] /\ precedes_or_is M (pick (children (wg_graph M) at_node)) b)).
  Proof.
    destruct (grow ob_graph (fun n => n) M (wg_nodes I) (linked (wg_graph I)) En Ex) as (G1 & G2 & G3 & G4 & _ & G6).
    - exact PM.
    - intros a b _ _ E. exact E.
    - exact ob_linked.
    - exact (pj_closed I PI).
    - exact (pj_acyclic I PI).
    - intros x y (-> & ->). rewrite map_id. split; [exact Hat|apply (pj_start I PI)].
    - intros x y (-> & K & ->). rewrite map_id. split; [apply (pj_start I PI)|]. apply Hpick, ob_child_linked in K. apply (pj_closed M PM _ _ K).
    - intros x. rewrite map_id. intros H1 H2. exact (Hdis x H1 H2).
    - exact (pj_nodup I PI).
    - exact ob_back.
    - intros s Hs. destruct (proj2 (pj_start I PI) s Hs) as [->|(p & L)]; [exists at_node; right; split; reflexivity|eauto].
    - rewrite map_id in *. split; [exact G1|]. split; [exact G2|]. split; [exact G3|]. split; [exact G4|].
      assert (I0 : forall a b, path0 (image (fun n => n) (linked (wg_graph M))) a b <-> precedes_or_is M a b).
      { intros a b. rewrite <- path0_poi. split; apply path0_mono; intros u v; apply image_id. }
      assert (I1 : forall a b, path (image (fun n => n) (linked (wg_graph M))) a b <-> precedes M a b).
      { intros a b. split; apply path_mono; intros u v; apply image_id. }
      assert (Nd : forall x, In x (wg_nodes I) -> ~ In x (wg_nodes M)) by (intros x H1 H2; exact (Hdis x H2 H1)).
      split; [|split; [|split]].
      + intros a b Ha Hb. rewrite G6. unfold splice_path. rewrite I1. assert (Na := Hdis a Ha). assert (Nb := Hdis b Hb). split.
        * intros [(_ & _ & [H|(x & s & t & y & H1 & (-> & ->) & _ & (_ & K & ->) & H5)])|[(_ & H & _)|[(H & _)|(H & _)]]]; [exact H| |tauto|tauto|tauto].
          apply I0 in H1. apply I0 in H5. apply Hpick, ob_child_linked in K.
          assert (Q : precedes M at_node b) by (eapply path_path0_trans; [apply t_step; exact K|apply path0_poi; exact H5]).
          eapply path0_path_trans; [apply path0_poi; exact H1|exact Q].
        * intros H. left. auto.
      + intros a s Ha Hs. rewrite G6. unfold splice_path. assert (Na := Hdis a Ha). assert (Ns := Nd s Hs). split.
        * intros [(_ & H & _)|[(_ & _ & x & y & H1 & (-> & ->) & _)|[(H & _)|(H & _)]]]; [tauto| |tauto|tauto]. apply I0. exact H1.
        * intros H. right; left. split; [exact Ha|]. split; [exact Hs|]. exists at_node, (wg_start I). split; [apply I0; exact H|].
          split; [split; reflexivity|]. apply (from_start I s PI Hs).
      + intros s t Hs Ht. rewrite G6. unfold splice_path. assert (Ns := Nd s Hs). assert (Nt := Nd t Ht). unfold precedes. tauto.
      + intros s b Hs Hb. rewrite G6. unfold splice_path. assert (Ns := Nd s Hs). assert (Nb := Hdis b Hb). split.
        * intros [(H & _)|[(H & _)|[(_ & _ & t & y & H1 & (-> & K & ->) & H3)|(_ & H & _)]]]; [tauto|tauto| |tauto].
          apply path0_path in H1 as [->|P]; [|exfalso; apply path_last in P as (p & _ & L); exact (start_first I p PI L)].
          split; [reflexivity|]. split; [exact K|]. apply I0. exact H3.
        * intros (-> & K & H). right; right; left. split; [exact Hs|]. split; [exact Hb|]. exists (wg_start I), (pick (children (wg_graph M) at_node)).
          split; [apply rt_refl|]. split; [split; [reflexivity|]; split; [exact K|reflexivity]|]. apply I0. exact H.
  Qed.
End Obstruct.

(** ** Generated sub-works *)
Section Restruct.
  Variables (M : work_graph) (subs : nat -> list (nat * work_unit)).
  Hypothesis PM : project M.
  Hypothesis Hfin : u_service (g_unit (wg_graph M) (wg_finish M)) = true.
  Hypothesis Hnd : NoDup (map fst (sub_units M subs)).
  Hypothesis Hfresh : forall s, In s (map fst (sub_units M subs)) -> ~ In s (wg_nodes M).
  Definition sub_of (n s : nat) : Prop :=
    In n (wg_nodes M) /\ u_service (g_unit (wg_graph M) n) = false /\ In s (map fst (subs n)).
  Definition rs_unit (m : nat) : work_unit :=
    match find (fun s => Nat.eqb (fst s) m) (sub_units M subs) with
    | Some s => snd s
    | None => copied_unit (fun n => n) M (fun _ => no_unit) m
    end.
  Definition rs_graph : graph :=
    Gr (restored_edges (fun n => n) M [] ++ concat (map (sub_edges M subs) (wg_nodes M))) rs_unit.
  Lemma sub_of_in n s : sub_of n s -> In s (map fst (sub_units M subs)).
  Proof.
    intros (H1 & H2 & H3). apply in_map_iff in H3 as ((s' & u) & <- & H3). apply (in_map fst _ (s', u)). unfold sub_units. apply in_concat.
    exists (subs n). split; [apply in_map_iff; exists n; rewrite H2; auto|exact H3].
  Qed.
  Lemma in_sub_of s : In s (map fst (sub_units M subs)) -> exists n, sub_of n s.
  Proof.
    intros H. apply in_map_iff in H as ((s' & u) & <- & H). unfold sub_units in H. apply in_concat in H as (l & Hl & H).
    apply in_map_iff in Hl as (n & <- & Hn). exists n. destruct (u_service (g_unit (wg_graph M) n)) eqn:E; [destruct H|].
    split; [exact Hn|]. split; [exact E|apply in_map; exact H].
  Qed.
  Let En x y := sub_of x y.
  Let Ex x y := y = wg_finish M /\ In x (map fst (sub_units M subs)).
  Lemma rs_linked x y : linked rs_graph x y <-> spliced (image (fun n => n) (linked (wg_graph M))) (fun _ _ => False) En Ex x y.
  Proof.
    unfold rs_graph. rewrite linked_app, (copy_linked _ M _ _ _ PM).
    assert (E : linked (Gr (concat (map (sub_edges M subs) (wg_nodes M))) rs_unit) x y <-> En x y \/ Ex x y).
    { split.
      - intros (e & He & <- & <-). cbn [g_edges] in He. apply in_concat in He as (l & Hl & He). apply in_map_iff in Hl as (n & <- & Hn).
        unfold sub_edges in He. destruct (u_service (g_unit (wg_graph M) n)) eqn:Es; [destruct He|].
        apply in_concat in He as (l & Hl & He). apply in_map_iff in Hl as (s & <- & Hs).
        assert (K : sub_of n (fst s)) by (split; [exact Hn|]; split; [exact Es|apply in_map; exact Hs]).
        destruct He as [<-|[<-|[]]]; cbn [e_from e_to]; [left; exact K|right]. split; [reflexivity|]. eapply sub_of_in. exact K.
      - intros K. assert (Q : exists n s, sub_of n s /\ (x = n /\ y = s \/ x = s /\ y = wg_finish M)).
        { destruct K as [K|[-> K]]; [exists x, y; auto|]. apply in_sub_of in K as (n & K). exists n, x. auto. }
        destruct Q as (n & s & (K1 & K2 & K3) & Q). apply in_map_iff in K3 as (p & <- & K3).
        assert (I : incl [Ed n (fst p) 0%Z FS; Ed (fst p) (wg_finish M) 0%Z FS] (concat (map (sub_edges M subs) (wg_nodes M)))).
        { intros e He. apply in_concat. exists (sub_edges M subs n). split; [apply in_map; exact K1|]. unfold sub_edges. rewrite K2.
          apply in_concat. eexists. split; [apply in_map_iff; exists p; split; [reflexivity|exact K3]|exact He]. }
        destruct Q as [[-> ->]|[-> ->]]; eexists; (split; [cbn [g_edges]; apply I|]).
        + left; reflexivity.
        + split; reflexivity.
        + right; left; reflexivity.
        + split; reflexivity. }
    rewrite E. unfold spliced. tauto.
  Qed.
  Lemma rs_grow : acyclic (linked rs_graph)
    /\ (forall x y, linked rs_graph x y -> In x (wg_nodes M ++ map fst (sub_units M subs)) /\ In y (wg_nodes M ++ map fst (sub_units M subs)))
    /\ NoDup (wg_nodes M ++ map fst (sub_units M subs)) /\ single_start rs_graph (wg_nodes M ++ map fst (sub_units M subs)) (wg_start M)
    /\ single_finish rs_graph (wg_nodes M ++ map fst (sub_units M subs)) (wg_finish M)
    /\ (forall a b, In a (wg_nodes M) -> In b (wg_nodes M) -> (path (linked rs_graph) a b <-> precedes M a b))
    /\ (forall a n s, In a (wg_nodes M) -> sub_of n s -> (path (linked rs_graph) a s <-> precedes_or_is M a n))
    /\ (forall n s x, sub_of n s -> (path (linked rs_graph) s x <-> x = wg_finish M)).
  Proof.
    assert (I0 : forall a b, path0 (image (fun n => n) (linked (wg_graph M))) a b <-> precedes_or_is M a b).
    { intros a b. rewrite <- path0_poi. split; apply path0_mono; intros u v; apply image_id. }
    assert (I1 : forall a b, path (image (fun n => n) (linked (wg_graph M))) a b <-> precedes M a b).
    { intros a b. split; apply path_mono; intros u v; apply image_id. }
    assert (Fin : forall x, precedes_or_is M (wg_finish M) x -> x = wg_finish M).
    { intros x [<-|P]; [reflexivity|]. apply path_first in P as (c & L & _). destruct (finish_last M c PM L). }
    destruct (grow rs_graph (fun n => n) M (map fst (sub_units M subs)) (fun _ _ => False) En Ex) as (G1 & G2 & G3 & G4 & G5 & G6).
    - exact PM.
    - intros a b _ _ E. exact E.
    - exact rs_linked.
    - intros x y [].
    - intros x P. apply path_first in P as (c & [] & _).
    - intros x y K. rewrite map_id. split; [apply K|eapply sub_of_in; exact K].
    - intros x y (-> & K). rewrite map_id. split; [exact K|apply (pj_finish M PM)].
    - intros x. rewrite map_id. intros H1 H2. exact (Hfresh x H2 H1).
    - exact Hnd.
    - intros a s t b K (-> & _) P. apply I0 in P. apply Fin in P. subst a. destruct K as (_ & K & _). congruence.
    - intros s Hs. apply in_sub_of in Hs as (n & K). exists n. right. exact K.
    - rewrite map_id in *. split; [exact G1|]. split; [exact G2|]. split; [exact G3|]. split; [exact G4|].
      split; [apply G5; intros s Hs; exists (wg_finish M); right; split; [reflexivity|exact Hs]|].
      assert (Nd : forall x, In x (wg_nodes M) -> ~ In x (map fst (sub_units M subs))) by (intros x H1 H2; exact (Hfresh x H2 H1)).
      split; [|split].
      + intros a b Ha Hb. rewrite G6. unfold splice_path. rewrite I1. assert (Na := Nd a Ha). assert (Nb := Nd b Hb). split.
        * intros [(_ & _ & [H|(x & s & t & y & H1 & K & _ & (-> & _) & H5)])|[(_ & H & _)|[(H & _)|(H & _)]]]; [exact H| |tauto|tauto|tauto].
          apply I0 in H1. apply I0 in H5. apply Fin in H5. subst b. assert (P := to_finish M a PM Ha). apply path0_path in P as [E|P]; [|exact P].
          exfalso. subst a. apply Fin in H1. subst x. destruct K as (_ & K & _). congruence.
        * intros H. left. auto.
      + intros a n s Ha Hs. rewrite G6. unfold splice_path. assert (Na := Nd a Ha). assert (Is := sub_of_in n s Hs). assert (Ns := Hfresh s Is). split.
        * intros [(_ & H & _)|[(_ & _ & x & y & H1 & K & P)|[(H & _)|(H & _)]]]; [tauto| |tauto|tauto].
          apply path0_none in P. subst y. apply I0 in H1. (* the work of a sub-work is unique *)
          assert (x = n); [|subst; exact H1].
          clear - Hnd K Hs. destruct K as (K1 & K2 & K3). destruct Hs as (Q1 & Q2 & Q3). unfold sub_units in Hnd.
          revert Hnd K1 Q1. generalize (wg_nodes M) as l. induction l as [|z l IH]; intros Hn K1 Q1; [destruct K1|].
          cbn [map concat] in Hn. rewrite map_app in Hn.
          assert (Out : forall y, In y l -> u_service (g_unit (wg_graph M) y) = false -> In s (map fst (subs y)) ->
            In s (map fst (concat (map (fun n => if u_service (g_unit (wg_graph M) n) then [] else subs n) l)))).
          { intros y Hy Ey Hs. rewrite concat_map, map_map. apply in_concat. exists (map fst (subs y)). split; [|exact Hs].
            apply in_map_iff. exists y. rewrite Ey. auto. }
          assert (Dup : forall A (l1 l2 : list A) z, NoDup (l1 ++ l2) -> In z l1 -> In z l2 -> False).
          { clear. induction l1 as [|y l1 IH]; intros l2 z Hn H1 H2; [destruct H1|]. inversion Hn; subst. destruct H1 as [->|H1]; [apply H3; apply in_or_app; auto|eauto]. }
          destruct K1 as [->|K1], Q1 as [->|Q1].
          -- reflexivity.
          -- exfalso. eapply Dup; [exact Hn|rewrite K2; exact K3|apply (Out n); assumption].
          -- exfalso. eapply Dup; [exact Hn|rewrite Q2; exact Q3|apply (Out x); assumption].
          -- apply IH; try assumption. clear - Hn. induction (map fst (if u_service (g_unit (wg_graph M) z) then [] else subs z)) as [|y r IH]; [exact Hn|].
             apply IH. inversion Hn; assumption.
        * intros H. right; left. split; [exact Ha|]. split; [exact Is|]. exists n, s. split; [apply I0; exact H|]. split; [exact Hs|apply rt_refl].
      + intros n s x Hs. rewrite G6. unfold splice_path. assert (Is := sub_of_in n s Hs). assert (Ns := Hfresh s Is). split.
        * intros [(H & _)|[(H & _)|[(_ & _ & t & y & _ & (-> & _) & H3)|(_ & _ & P)]]]; [tauto|tauto| |].
          -- apply I0 in H3. apply Fin in H3. exact H3.
          -- apply path_first in P as (c & [] & _).
        * intros ->. right; right; left. split; [exact Is|]. split; [apply (pj_finish M PM)|]. exists s, (wg_finish M). split; [apply rt_refl|].
          split; [split; [reflexivity|exact Is]|apply rt_refl].
  Qed.
End Restruct.
