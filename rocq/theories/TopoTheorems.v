(** C20 and C22: priority correction and topological sorting. *)
From Coq Require Import ZArith List Bool Lia Arith Relations Sorted Permutation.
From Verif Require Import TimeModel MomentumModel GraphModel ScheduleSpec ScheduleInv Digraph StableSort TopoModel TopoProofs.
Import ListNotations.

(** ** C22: toposort *)

(** Whatever the dictionary (a dictionary has no repeated keys): either the levels contain
    every item exactly once and everything an item depends on is in an earlier level, and
    there is no cycle; or CircularDependencyError is raised and there is a cycle. An
    item's dependency on itself is ignored. *)
Theorem toposort_correct (d : deps) : NoDup (map fst d) ->
  (exists ls, toposort d = Levels ls /\ acyclic (depends d)
     /\ NoDup (concat ls) /\ (forall x, In x (concat ls) <-> items d x)
     /\ (forall earlier level later x y, ls = earlier ++ level :: later -> In y level -> depends d x y ->
           exists level', In level' earlier /\ In x level')
     /\ (forall level, In level ls -> level <> []))
  \/ (toposort d = Circular /\ exists x, path (depends d) x x).
Proof.
  intros Hnd. destruct (prepared_spec d Hnd) as (Pn & Pc & Pi & Pd).
  assert (Hne : forall fuel e ls, topo_loop fuel e = Levels ls -> forall L, In L ls -> L <> []).
  { induction fuel as [|fuel IH]; intros e ls H L HL; [discriminate|]. cbn [topo_loop] in H.
    destruct (ready e) as [|r0 rs] eqn:Er; [destruct e; [injection H as <-; destruct HL|discriminate]|].
    destruct (topo_loop fuel (minus (r0 :: rs) e)) as [ls'| |] eqn:El; try discriminate. injection H as <-.
    destruct HL as [<-|HL]; [discriminate|]. eapply IH; eauto. }
  assert (E : toposort d = topo_loop (S (length (prepared d))) (prepared d)).
  { destruct d as [|x d']; [reflexivity|reflexivity]. }
  assert (HT := topo_loop_spec (S (length (prepared d))) (prepared d) Pn Pc ltac:(lia)).
  specialize (Hne (S (length (prepared d))) (prepared d)).
  rewrite E. destruct (topo_loop _ (prepared d)) as [ls| |]; [left|right|contradiction].
  - destruct HT as [HP HL]. exists ls. split; [reflexivity|].
    assert (Hnc : NoDup (concat ls)) by (eapply Permutation_NoDup; [apply Permutation_sym; exact HP|exact Pn]).
    split; [|split; [exact Hnc|split; [|split]]].
    + destruct (levels_topological (dep_of (prepared d)) ls ls) as [_ Ht].
      { intros pre L post y x El Hy (ds & H & Hx). eapply HL; eauto. }
      { clear. induction ls; constructor; auto. }
      intros x Hx. apply (topological_acyclic _ _ Hnc Ht) with (x := x).
      * intros a b Hab. assert (Hab' := Hab). apply Pd in Hab'. split; (eapply Permutation_in; [apply Permutation_sym; exact HP|]); apply Pi.
        -- right. exists b. exact Hab'.
        -- left. destruct Hab' as (_ & ds & H & _). eapply deps_key; eauto.
      * eapply path_incl; [|exact Hx]. intros a b H. apply Pd. exact H.
    + intros x. rewrite <- Pi. split; apply Permutation_in; [exact HP|apply Permutation_sym; exact HP].
    + intros earlier level later x y El Hy Hxy. apply Pd in Hxy as (ds & H & Hx).
      assert (G := HL earlier level later y ds x El Hy H Hx). apply in_concat in G as (L & G1 & G2). eauto.
    + intros L HLin. eapply Hne; eauto.
  - split; [reflexivity|]. destruct HT as [x Hx]. exists x. eapply path_incl; [|exact Hx]. intros a b H. apply Pd. exact H.
Qed.
Print Assumptions toposort_correct.

Example toposort_example :
  let d := [(1, [0; 1]); (2, [0; 5]); (3, [1; 2]); (0, [])]%nat in
  NoDup (map fst d) /\ toposort d = Levels [[0; 5]; [1; 2]; [3]]%nat
  /\ toposort [(1, [3]); (2, [1]); (3, [2]); (0, [])]%nat = Circular.
Proof. split; [repeat constructor; simpl; intuition discriminate|]. split; reflexivity. Qed.

(** ** C22: the topological scheduler's order *)

Section Sort.
  Variable prio : nat -> Z.
  Variable parents_of : nat -> list nat.
  (** the order in which a set is listed *)
  Variable shuffle : list nat -> list nat.
  Hypothesis Hsh : forall l, Permutation (shuffle l) l.

  Definition before (nodes : list nat) (x y : nat) : Prop :=
    x <> y /\ In x nodes /\ In y nodes /\ In x (parents_of y).

  Lemma group_deps_depends nodes x y : depends (group_deps parents_of nodes) x y <-> before nodes x y.
  Proof.
    unfold depends, before, group_deps. split.
    - intros (Hne & ds & H & Hx). apply in_map_iff in H as (k & [= <- <-] & Hk). apply filter_In in Hx as [Hx Hm].
      apply mem_in in Hm. auto.
    - intros (Hne & Hx & Hy & Hp). split; [exact Hne|]. eexists. split; [apply in_map_iff; exists y; split; [reflexivity|exact Hy]|].
      apply filter_In. split; [exact Hp|]. apply mem_in. exact Hx.
  Qed.
  Lemma group_deps_keys nodes : map fst (group_deps parents_of nodes) = nodes.
  Proof. unfold group_deps. rewrite map_map. simpl. apply map_id. Qed.

  (** one priority group *)
  Lemma sort_group (nodes : list nat) : NoDup nodes ->
    (exists ls, toposort (group_deps parents_of nodes) = Levels ls
       /\ Permutation (concat (map shuffle ls)) nodes /\ topological (before nodes) (concat (map shuffle ls)))
    \/ (toposort (group_deps parents_of nodes) = Circular /\ exists x, path (before nodes) x x).
  Proof.
    intros Hnd. assert (Hk : NoDup (map fst (group_deps parents_of nodes))) by (rewrite group_deps_keys; exact Hnd).
    destruct (toposort_correct _ Hk) as [(ls & E & _ & Hnc & Hi & Hl & _)|(E & x & Hx)].
    - left. exists ls. split; [exact E|].
      assert (HF : Forall2 (@Permutation nat) (map shuffle ls) ls) by (clear -Hsh; induction ls; constructor; auto).
      assert (HP : Permutation (concat ls) nodes).
      { apply NoDup_Permutation; auto. intros x. rewrite Hi. unfold items. rewrite group_deps_keys. split; [|auto].
        intros [H|[y H]]; [exact H|]. apply group_deps_depends in H. apply H. }
      destruct (levels_topological (before nodes) ls (map shuffle ls)) as [P T].
      + intros pre L post y x EE Hy Hb. apply group_deps_depends in Hb.
        destruct (Hl pre L post x y EE Hy Hb) as (L' & G1 & G2). apply in_concat. eauto.
      + exact HF.
      + split; [eapply Permutation_trans; eauto|exact T].
    - right. split; [exact E|]. exists x. eapply path_incl; [|exact Hx]. intros a b H. apply group_deps_depends. exact H.
  Qed.

  Lemma sort_groups_spec nodes : NoDup nodes ->
    forall ps, StronglySorted Z.lt ps ->
    (exists l, sort_groups prio parents_of shuffle nodes ps = Some l /\ NoDup l
       /\ (forall x, In x l <-> In x nodes /\ In (prio x) ps)
       /\ ascending prio l
       /\ (forall x y, before nodes x y -> prio x = prio y -> In y l -> comes_before l x y))
    \/ (sort_groups prio parents_of shuffle nodes ps = None /\ exists x, path (before nodes) x x).
  Proof.
    intros Hnd. induction ps as [|p ps IH]; intros Hps; cbn [sort_groups].
    - left. exists []. split; [reflexivity|]. split; [constructor|]. split; [simpl; tauto|]. split; [constructor|].
      intros x y _ _ [].
    - apply StronglySorted_inv in Hps as [Hps Hf]. rewrite Forall_forall in Hf.
      destruct (sort_group (priority_group prio nodes p)) as [(ls & -> & HP & HT)|(-> & x & Hx)].
      + unfold priority_group. apply NoDup_filter. exact Hnd.
      + destruct (IH Hps) as [(l & -> & Hl & Hi & Ha & Ht)|(-> & Hc)]; [left|right; auto].
        set (g := concat (map shuffle ls)) in *.
        assert (Hg : forall x, In x g <-> In x nodes /\ prio x = p).
        { intros x. rewrite <- priority_group_in. split; apply Permutation_in; [exact HP|apply Permutation_sym; exact HP]. }
        exists (g ++ l). split; [reflexivity|]. split; [|split; [|split]].
        * apply nodup_app_i; [|exact Hl|].
          -- eapply Permutation_NoDup; [apply Permutation_sym; exact HP|]. unfold priority_group. apply NoDup_filter. exact Hnd.
          -- intros x H1 H2. apply Hg in H1. apply Hi in H2. destruct H1 as [_ <-], H2 as [_ H2]. specialize (Hf _ H2). lia.
        * intros x. rewrite in_app_iff, Hg, Hi. simpl. intuition auto.
        * assert (Hpg : forall x, In x g -> prio x = p) by (intros x Hx; apply Hg; exact Hx).
          assert (Hpl : forall x, In x l -> (p < prio x)%Z) by (intros x Hx; apply Hf, Hi; exact Hx).
          clear -Hpg Hpl Ha. unfold ascending in *. induction g as [|x g IHg]; simpl; [exact Ha|].
          constructor; [apply IHg; intros y Hy; apply Hpg; right; exact Hy|].
          apply Forall_forall. intros y Hy. rewrite (Hpg x (or_introl eq_refl)).
          apply in_app_or in Hy as [Hy|Hy]; [rewrite (Hpg y (or_intror Hy)); lia|apply Hpl in Hy; lia].
        * intros x y Hb E Hy. apply in_app_or in Hy as [Hy|Hy].
          -- apply comes_before_app_l. assert (Hy' := proj1 (Hg y) Hy). destruct Hy' as [Hy1 Hy2].
             destruct Hb as (Hne & Hxn & Hyn & Hp). apply HT; [|apply Hg; split; [exact Hxn|congruence]|exact Hy].
             repeat split; auto; apply priority_group_in; split; auto; congruence.
          -- apply comes_before_app_r. apply Ht; auto.
      + right. split; [reflexivity|]. exists x. eapply path_incl; [|exact Hx].
        intros a b (Hne & Ha & Hb & Hp). apply priority_group_in in Ha, Hb. unfold before. tauto.
  Qed.

  (** The order contains every node exactly once, the priorities never decrease along it,
      and a node comes after every node it depends on, provided that priorities respect
      dependencies. CircularDependencyError ([None]) is raised exactly if the dependencies
      contain a cycle. *)
  Theorem topological_order_correct (nodes : list nat) : NoDup nodes ->
    (forall x y, before nodes x y -> (prio x <= prio y)%Z) ->
    (exists l, topological_sort prio parents_of shuffle nodes = Some l /\ acyclic (before nodes)
       /\ Permutation l nodes /\ ascending prio l /\ topological (before nodes) l)
    \/ (topological_sort prio parents_of shuffle nodes = None /\ exists x, path (before nodes) x x).
  Proof.
    intros Hnd Hmono. unfold topological_sort.
    destruct (sort_groups_spec nodes Hnd _ (priority_values_sorted prio nodes)) as [(l & -> & Hl & Hi & Ha & Ht)|H]; [left|right; exact H].
    assert (Hi' : forall x, In x l <-> In x nodes).
    { intros x. rewrite Hi, priority_values_in. split; [tauto|]. intros Hx. split; [exact Hx|]. eauto. }
    assert (HT : topological (before nodes) l).
    { intros x y Hb Hx Hy. destruct (Z.eq_dec (prio x) (prio y)) as [E|E]; [apply Ht; assumption|].
      specialize (Hmono x y Hb). destruct (comes_before_total l x y Hx Hy) as [H|H]; [apply Hb|exact H|exfalso].
      destruct H as (p & q & r & E'). clear -Ha E' E Hmono. subst l. unfold ascending in Ha.
      induction p as [|z p IH]; simpl in Ha; apply StronglySorted_inv in Ha as [Ha Hf]; [|auto].
      rewrite Forall_forall in Hf. specialize (Hf x ltac:(apply in_or_app; right; left; reflexivity)). simpl in Hf. lia. }
    exists l. split; [reflexivity|]. split; [|split; [|split; assumption]].
    - eapply topological_acyclic; [exact Hl|exact HT|]. intros x y (_ & Hx & Hy & _). split; apply Hi'; assumption.
    - apply NoDup_Permutation; auto.
  Qed.
End Sort.
Print Assumptions topological_order_correct.

Example topological_order_example :
  let prio n := match n with 3%nat => 0 | 4%nat => 2 | _ => 1 end%Z in
  let par n := match n with 1 => [0] | 2 => [0; 3] | 4 => [1; 2] | _ => [] end%nat in
  let nodes := [4; 2; 1; 0; 3]%nat in
  NoDup nodes /\ (forall x y, before par nodes x y -> (prio x <= prio y)%Z)
  /\ topological_sort prio par (@rev nat) nodes = Some [3; 0; 1; 2; 4]%nat
  /\ topological_sort prio (fun n => if Nat.eqb n 0 then [2%nat] else par n) (@rev nat) nodes = None.
Proof.
  split; [repeat constructor; simpl; intuition discriminate|]. split; [|split; vm_compute; reflexivity].
  intros x y (_ & Hx & Hy & Hp). simpl in *.
  repeat (destruct Hy as [<-|Hy]; [simpl in Hp; repeat (destruct Hp as [<-|Hp]; [lia|]); destruct Hp|]). destruct Hy.
Qed.

(** Without priorities that respect dependencies the order may violate a dependency. *)
Theorem topological_order_priorities_needed : exists prio par nodes l,
  NoDup nodes /\ acyclic (before par nodes) /\ topological_sort prio par (fun s => s) nodes = Some l
  /\ ~ topological (before par nodes) l.
Proof.
  exists (fun n => if Nat.eqb n 0 then 5 else 1)%Z, (fun n => if Nat.eqb n 1 then [0%nat] else []), [0; 1]%nat, [1; 0]%nat.
  split; [repeat constructor; simpl; intuition discriminate|]. split; [|split; [reflexivity|]].
  - apply (topological_acyclic _ [0; 1]%nat); [repeat constructor; simpl; intuition discriminate| |].
    + intros x y (_ & _ & Hy & Hp) _ _. simpl in Hy. destruct Hy as [<-|[<-|[]]]; simpl in Hp; [destruct Hp|].
      destruct Hp as [<-|[]]. exists [], [], []. reflexivity.
    + intros x y (_ & Hx & Hy & _). auto.
  - intros H. specialize (H 0 1)%nat. assert (C : comes_before [1; 0]%nat 0%nat 1%nat).
    { apply H; [|right; left; reflexivity|left; reflexivity]. repeat split; simpl; auto. }
    apply comes_before_pos in C; [simpl in C; lia|]. repeat constructor; simpl; intuition discriminate.
Qed.
Print Assumptions topological_order_priorities_needed.

(** ** C20: priority correction *)

(** [y] depends on [x] *)
Definition depends_on (g : graph) (x y : nat) : Prop :=
  exists e, In e (g_edges g) /\ is_dependency (e_type e) = true /\ e_from e = x /\ e_to e = y.

Lemma parents_in g x y : In x (parents g y) <-> depends_on g x y.
Proof.
  unfold parents, edges_to, depends_on. rewrite in_map_iff. split.
  - intros (e & <- & H). apply filter_In in H as [H Hd]. apply filter_In in H as [H Ht]. apply Nat.eqb_eq in Ht. eauto.
  - intros (e & He & Hd & <- & <-). exists e. split; [reflexivity|]. apply filter_In. split; [|exact Hd].
    apply filter_In. split; [exact He|]. apply Nat.eqb_refl.
Qed.

Section Priority.
  Variable g : graph.
  Variable nodes : list nat.
  Hypothesis Hac : acyclic (depends_on g).
  Hypothesis Hcl : forall x y, depends_on g x y -> In x nodes /\ In y nodes.
  Local Open Scope Z_scope.
  (** [f'] is [f] with everything in [S] lowered to at most [v] *)
  Definition lowered (S : nat -> Prop) (v : Z) (f f' : nat -> Z) : Prop :=
    (forall m, S m -> f' m = Z.min (f m) v) /\ (forall m, f' m = f m \/ S m).

  Lemma update_spec : forall fuel n v f l,
    StronglySorted (path (depends_on g)) (n :: l) -> incl (n :: l) nodes ->
    (length nodes < length (n :: l) + fuel)%nat ->
    exists f', update_priority fuel g n v f = Some f' /\ lowered (fun m => path0 (depends_on g) m n) v f f'.
  Proof.
    induction fuel as [|fuel IH]; intros n v f l Hs Hi Hlen.
    - exfalso. assert (Hd := walk_nodup _ _ Hac Hs). apply (NoDup_incl_length Hd) in Hi. lia.
    - cbn [update_priority].
      assert (Hstep : forall p f0, In p (parents g n) -> exists f', update_priority fuel g p v f0 = Some f'
                        /\ lowered (fun m => path0 (depends_on g) m p) v f0 f').
      { intros p f0 Hp. apply parents_in in Hp. apply (IH p v f0 (n :: l)).
        - constructor; [exact Hs|]. constructor; [apply t_step; exact Hp|].
          apply StronglySorted_inv in Hs as [_ Hs]. eapply Forall_impl; [|exact Hs]. simpl. intros z Hz.
          eapply t_trans; [apply t_step; exact Hp|exact Hz].
        - intros z [<-|Hz]; [apply (Hcl _ _ Hp)|apply Hi; exact Hz].
        - cbn [length] in *. lia. }
      assert (Hfold : forall ps f0, incl ps (parents g n) -> exists f',
        fold_left (fun acc p => match acc with None => None | Some f => update_priority fuel g p v f end) ps (Some f0) = Some f'
        /\ lowered (fun m => exists p, In p ps /\ path0 (depends_on g) m p) v f0 f').
      { induction ps as [|p ps IHp]; intros f0 Hin; simpl.
        - exists f0. split; [reflexivity|]. split; [intros m (q & [] & _)|auto].
        - destruct (Hstep p f0) as (f1 & -> & L1 & L1'); [apply Hin; left; reflexivity|].
          destruct (IHp f1) as (f2 & -> & L2 & L2'); [intros z Hz; apply Hin; right; exact Hz|].
          exists f2. split; [reflexivity|]. split.
          + intros m (q & [<-|Hq] & Hm).
            * destruct (L2' m) as [E|E]; [rewrite E; apply L1; exact Hm|]. rewrite (L2 m E), (L1 m Hm). lia.
            * rewrite (L2 m); [|eauto]. destruct (L1' m) as [E|E]; [rewrite E; reflexivity|]. rewrite (L1 m E). lia.
          + intros m. destruct (L2' m) as [E|(q & Hq & E)]; [|right; eauto].
            destruct (L1' m) as [E1|E1]; [left; congruence|right; eauto]. }
      destruct (Hfold (parents g n) (fun m => if Nat.eqb m n then Z.min (f m) v else f m) (incl_refl _)) as (f' & -> & L & L').
      exists f'. split; [reflexivity|]. split.
      + intros m Hm. destruct (L' m) as [E|E].
        * destruct (Nat.eqb_spec m n) as [->|Hne]; [exact E|].
          apply path0_last in Hm as [Hm|(p & Hm & Hp)]; [contradiction|].
          rewrite (L m); [|exists p; split; [apply parents_in; exact Hp|exact Hm]].
          destruct (Nat.eqb_spec m n); [contradiction|reflexivity].
        * rewrite (L m E). destruct (Nat.eqb_spec m n); lia.
      + intros m. destruct (L' m) as [E|(p & Hp & E)].
        * destruct (Nat.eqb_spec m n) as [Hmn|Hne]; [right; rewrite Hmn; apply rt_refl|left; exact E].
        * right. eapply rt_trans; [exact E|]. apply rt_step. apply parents_in. exact Hp.
  Qed.

  Variable depth : nat.
  Hypothesis Hdepth : (length nodes <= depth)%nat.
  Variable prio : nat -> Z.
  (** what holds after the nodes [done] have been processed *)
  Definition corrected (done : list nat) (f : nat -> Z) : Prop :=
    (forall x, f x <= prio x)
    /\ (forall x, exists m, path0 (depends_on g) x m /\ f x = prio m)
    /\ (forall x y, In y done -> depends_on g x y -> f x <= f y).

  Lemma correct_node_spec n done f : corrected done f ->
    exists f', correct_node depth g n f = Some f' /\ corrected (n :: done) f'.
  Proof.
    intros Hc. unfold correct_node.
    assert (Hfold : forall ps qs f, corrected done f -> (forall q, In q qs -> f q <= f n) -> incl ps (parents g n) ->
      exists f', fold_left (fun acc p => match acc with
                          | None => None
                          | Some f => if Z.ltb (f n) (f p) then update_priority depth g p (f n) f else Some f
                          end) ps (Some f) = Some f' /\ corrected done f' /\ (forall q, In q (ps ++ qs) -> f' q <= f' n)).
    { induction ps as [|p ps IH]; intros qs f0 H0 Hq Hin; simpl; [eauto|].
      assert (Hp : depends_on g p n) by (apply parents_in, Hin; left; reflexivity).
      assert (Hin' : incl ps (parents g n)) by (intros z Hz; apply Hin; right; exact Hz).
      assert (Hor : forall q, In q ((p :: ps) ++ qs) -> In q (ps ++ p :: qs)).
      { intros q Hqq. simpl in Hqq. rewrite in_app_iff in *. simpl. tauto. }
      destruct (Z.ltb_spec (f0 n) (f0 p)) as [Hlt|Hge].
      - destruct (update_spec depth p (f0 n) f0 []) as (f1 & -> & L & L').
        { repeat constructor. }
        { intros z [<-|[]]. apply (Hcl _ _ Hp). }
        { cbn [length]. lia. }
        assert (Hle : forall x, f1 x <= f0 x) by (intros x; destruct (L' x) as [E|E]; [lia|rewrite (L x E); lia]).
        assert (Hn : f1 n = f0 n) by (destruct (L' n) as [E|E]; [exact E|rewrite (L n E); lia]).
        destruct (IH (p :: qs) f1) as (f2 & -> & C2 & Q2); [| |exact Hin'|].
        + destruct H0 as (C1 & C2 & C3). split; [|split].
          * intros x. specialize (Hle x). specialize (C1 x). lia.
          * intros x. destruct (L' x) as [E|E]; [rewrite E; apply C2|].
            rewrite (L x E). destruct (Z.min_spec (f0 x) (f0 n)) as [[_ ->]|[_ ->]]; [apply C2|].
            destruct (C2 n) as (m & Hm & Em). exists m. split; [|exact Em].
            eapply rt_trans; [exact E|]. eapply rt_trans; [apply rt_step; exact Hp|exact Hm].
          * intros x y Hy Hxy. assert (G := C3 x y Hy Hxy). destruct (L' y) as [E|E]; [specialize (Hle x); lia|].
            rewrite (L y E), (L x); [lia|]. eapply rt_trans; [apply rt_step; exact Hxy|exact E].
        + intros q [<-|Hqq]; [rewrite Hn, (L p (rt_refl _ _ _)); lia|]. specialize (Hq q Hqq). specialize (Hle q). lia.
        + exists f2. split; [reflexivity|]. split; [exact C2|]. intros q Hqq. apply Q2. apply Hor. exact Hqq.
      - destruct (IH (p :: qs) f0) as (f2 & -> & C2 & Q2); [exact H0| |exact Hin'|].
        + intros q [<-|Hqq]; [lia|auto].
        + exists f2. split; [reflexivity|]. split; [exact C2|]. intros q Hqq. apply Q2. apply Hor. exact Hqq. }
    destruct (Hfold (parents g n) [] f Hc) as (f' & E & (C1 & C2 & C3) & Q); [intros q []|apply incl_refl|].
    exists f'. split; [exact E|]. split; [exact C1|]. split; [exact C2|].
    intros x y [<-|Hy] Hxy; [|auto]. apply Q. rewrite app_nil_r. apply parents_in. exact Hxy.
  Qed.
  Lemma check_and_correct_spec : forall ns done f, corrected done f ->
    exists f', fold_left (fun acc n => match acc with None => None | Some f => correct_node depth g n f end) ns (Some f) = Some f'
      /\ corrected (rev ns ++ done) f'.
  Proof.
    induction ns as [|n ns IH]; intros done f Hc; simpl; [eauto|].
    destruct (correct_node_spec n done f Hc) as (f1 & -> & H1). destruct (IH _ _ H1) as (f2 & -> & H2).
    exists f2. split; [reflexivity|]. rewrite <- app_assoc. exact H2.
  Qed.
End Priority.

Lemma correct_nothing depth g nodes f : (forall x y, depends_on g x y -> (f x <= f y)%Z) ->
  check_and_correct depth g nodes f = Some f.
Proof.
  intros H. unfold check_and_correct. induction nodes as [|n nodes IH]; simpl; [reflexivity|].
  assert (E : correct_node depth g n f = Some f).
  { unfold correct_node. assert (Hp : forall p, In p (parents g n) -> (f p <= f n)%Z) by (intros p Hp; apply H, parents_in; exact Hp).
    induction (parents g n) as [|p ps IHp]; simpl; [reflexivity|].
    destruct (Z.ltb_spec (f n) (f p)); [specialize (Hp p (or_introl eq_refl)); lia|]. apply IHp. intros q Hq. apply Hp. right. exact Hq. }
  rewrite E. exact IH.
Qed.

(** In every acyclic graph, whose nodes may be listed in any order, and for all priorities,
    the correction terminates (without exhausting a recursion depth of the number of nodes);
    afterwards no work has a larger priority than a work that depends on it, and every
    priority is the minimum of the original priorities of the work itself and of all works
    that depend on it directly or indirectly. A second correction changes nothing. *)
Theorem priorities_corrected (g : graph) (nodes : list nat) (depth : nat) (prio : nat -> Z) :
  acyclic (depends_on g) -> (forall x y, depends_on g x y -> In x nodes /\ In y nodes) ->
  (length nodes <= depth)%nat ->
  exists prio', check_and_correct depth g nodes prio = Some prio'
    /\ (forall x y, depends_on g x y -> (prio' x <= prio' y)%Z)
    /\ (forall x, (exists m, path0 (depends_on g) x m /\ prio' x = prio m)
                  /\ (forall m, path0 (depends_on g) x m -> (prio' x <= prio m)%Z))
    /\ check_and_correct depth g nodes prio' = Some prio'.
Proof.
  intros Hac Hcl Hd.
  destruct (check_and_correct_spec g nodes Hac Hcl depth Hd prio nodes [] prio) as (f & E & C1 & C2 & C3).
  { split; [intros; lia|]. split; [|intros x y []]. intros x. exists x. split; [apply rt_refl|reflexivity]. }
  assert (Hm : forall x y, depends_on g x y -> (f x <= f y)%Z).
  { intros x y H. apply C3; [|exact H]. rewrite app_nil_r, <- in_rev. apply (Hcl _ _ H). }
  exists f. split; [exact E|]. split; [exact Hm|]. split; [|apply correct_nothing; exact Hm].
  intros x. split; [apply C2|]. intros m Hp. specialize (C1 m).
  assert (G : forall a b, path0 (depends_on g) a b -> (f a <= f b)%Z).
  { induction 1 as [a b H|a|a b c _ H1 _ H2]; [auto|lia|lia]. }
  specialize (G x m Hp). lia.
Qed.
Print Assumptions priorities_corrected.

Definition px_unit : work_unit := WU false [] 1%Z.
Definition px_graph : graph := Gr [Ed 0 1 0 FS; Ed 1 2 0 FFS; Ed 0 3 0 SS; Ed 1 3 0 IFS]%nat%Z (fun _ => px_unit).
Example priorities_corrected_example :
  let prio n := match n with 0%nat => 7 | 1%nat => 9 | 2%nat => 4 | _ => 6 end%Z in
  acyclic (depends_on px_graph) /\ (forall x y, depends_on px_graph x y -> In x [0; 1; 2; 3]%nat /\ In y [0; 1; 2; 3]%nat)
  /\ option_map (fun f => map f [0; 1; 2; 3]%nat) (check_and_correct 4 px_graph [0; 1; 2; 3]%nat prio) = Some [4; 4; 4; 6]%Z.
Proof.
  assert (H : forall x y, depends_on px_graph x y -> In (x, y) [(0, 1); (1, 2); (1, 3)]%nat).
  { intros x y (e & He & Hd & <- & <-). simpl in He.
    repeat (destruct He as [<-|He]; [try discriminate; simpl; tauto|]). destruct He. }
  split; [|split; [|vm_compute; reflexivity]].
  - apply (topological_acyclic _ [0; 1; 2; 3]%nat); [repeat constructor; simpl; intuition discriminate| |].
    + intros x y Hxy _ _. apply H in Hxy. simpl in Hxy.
      apply comes_before_pos; [repeat constructor; simpl; intuition discriminate|].
      destruct Hxy as [[= <- <-]|[[= <- <-]|[[= <- <-]|[]]]]; simpl; intuition lia.
    + intros x y Hxy. apply H in Hxy. simpl in *. intuition congruence.
  - intros x y Hxy. apply H in Hxy. simpl in *. intuition congruence.
Qed.

(** Correcting the priorities first makes the topological order respect the dependencies
    whatever the original priorities are. *)
Theorem corrected_topological_order (g : graph) (nodes : list nat) (depth : nat) (prio : nat -> Z) shuffle :
  (forall l, Permutation (shuffle l) l) -> NoDup nodes ->
  acyclic (depends_on g) -> (forall x y, depends_on g x y -> In x nodes /\ In y nodes) ->
  (length nodes <= depth)%nat ->
  exists prio' l, check_and_correct depth g nodes prio = Some prio'
    /\ topological_sort prio' (parents g) shuffle nodes = Some l
    /\ Permutation l nodes /\ topological (depends_on g) l.
Proof.
  intros Hsh Hnd Hac Hcl Hd. destruct (priorities_corrected g nodes depth prio Hac Hcl Hd) as (f & E & Hm & _).
  destruct (topological_order_correct f (parents g) shuffle Hsh nodes Hnd) as [(l & El & _ & P & _ & T)|(_ & x & Hx)].
  - intros x y (_ & _ & _ & H). apply Hm, parents_in. exact H.
  - exists f, l. split; [exact E|]. split; [exact El|]. split; [exact P|]. intros x y Hxy Hx Hy. apply T; auto.
    split; [intros ->; apply (Hac y); apply t_step; exact Hxy|].
    split; [apply (Hcl _ _ Hxy)|]. split; [apply (Hcl _ _ Hxy)|]. apply parents_in. exact Hxy.
  - exfalso. apply (Hac x). eapply path_incl; [|exact Hx]. intros a b (_ & _ & _ & H). apply parents_in. exact H.
Qed.
Print Assumptions corrected_topological_order.
