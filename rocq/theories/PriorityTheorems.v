(** C23-C25 and C50: the orders of HEFT and of the latest-finish-time rules, and the
    critical path. *)
From Coq Require Import ZArith List Bool Lia Arith Relations Sorted Permutation ZifyBool ZifyNat.
From Verif Require Import TimeModel TimeProofs ScheduleProofs MomentumModel GraphModel ScheduleModel ScheduleSpec ScheduleInv Digraph StableSort TopoModel TopoProofs
  TopoTheorems HeadModel HeadProofs PriorityModel PriorityProofs.
Import ListNotations.
Local Open Scope Z_scope.

(** [above nodes parent_ids x y]: both are listed and [x] is a prerequisite of [y]. *)

Lemma filter_before (f : nat -> bool) l x y : comes_before l x y -> f x = true -> f y = true -> comes_before (filter f l) x y.
Proof.
  intros (p & q & r & ->) Hx Hy. rewrite !filter_app. simpl. rewrite Hx, filter_app. simpl. rewrite Hy.
  exists (filter f p), (filter f q), (filter f r). reflexivity.
Qed.
Lemma above_filter nodes parent_ids f x y : above (filter f nodes) parent_ids x y -> above nodes parent_ids x y.
Proof. intros (Hx & Hy & Hp). apply filter_In in Hx as [Hx _], Hy as [Hy _]. split; auto. Qed.
Lemma filter_topological nodes parent_ids f : topological (above nodes parent_ids) nodes ->
  topological (above (filter f nodes) parent_ids) (filter f nodes).
Proof.
  intros H x y Hxy Hx Hy. apply filter_In in Hx as [Hx Ex], Hy as [Hy Ey]. apply filter_before; auto. apply H; auto.
  eapply above_filter; eauto.
Qed.

(** ** C23 *)
Lemma cascade_nonneg g est n team t : estimator_ok est -> working_time_cascade g est n team = Some t -> 0 <= t.
Proof.
  intros He. unfold working_time_cascade. destruct (is_son g n); [intros [= <-]; lia|].
  destruct (chain_of g n) as [c|]; [|discriminate]. intros [= <-].
  assert (H : forall c a, 0 <= a -> 0 <= fold_left (fun t m => tadd t (est m team)) c a).
  { clear c. induction c as [|m c IH]; intros a Ha; simpl; [exact Ha|]. apply IH. destruct (He m team).
    unfold tadd, set_time. assert (P := INF_pos). destruct (Z.ltb_spec TIME_INF (a + est m team)); [lia|].
    destruct (Z.ltb_spec (a + est m team) (- TIME_INF)); lia. }
  apply H. lia.
Qed.
Lemma heft_weight_negative g est n : estimator_ok est -> has_priority g est n = true -> heft_weight g est n < 0.
Proof.
  intros He. unfold has_priority, heft_weight, work_priority.
  cbv zeta.
  destruct (working_time_cascade g est n (map (fun r => Wk 0 (r_kind r) (r_min r)) (u_reqs (g_unit g n)))) as [a|] eqn:Ea; [|discriminate].
  destruct (working_time_cascade g est n (map (fun r => Wk 0 (r_kind r) (r_max r)) (u_reqs (g_unit g n)))) as [b|] eqn:Eb; [|discriminate]. intros _.
  apply cascade_nonneg in Ea; [|exact He]. apply cascade_nonneg in Eb; [|exact He].
  assert (P := INF_pos). unfold tadd, set_time. destruct (Z.ltb_spec TIME_INF (a + b)); [lia|].
  destruct (Z.ltb_spec (a + b) (- TIME_INF)); lia.
Qed.
Lemma has_priority_head g est n : chains_wf g -> (forall x, ~ inseparable g x n) -> has_priority g est n = true.
Proof.
  intros Hwf Hh. unfold has_priority, work_priority, working_time_cascade.
  destruct (chain_of_head g Hwf n Hh) as (c & -> & _). destruct (is_son g n); reflexivity.
Qed.

Theorem heft_order_correct :
  forall g est prio parent_ids nodes,
    estimator_ok est -> chains_wf g -> (forall n, In n nodes -> forall x, ~ inseparable g x n) ->
    NoDup nodes -> topological (above nodes parent_ids) nodes ->
    (forall x y, above nodes parent_ids x y -> prio x <= prio y) ->
    exists l, heft_order g est prio parent_ids nodes = Some l /\
      Permutation l nodes /\ topological (above nodes parent_ids) l /\ ascending prio l.
Proof.
  intros g est prio parent_ids nodes He Hwf Hh Hnd Ht Hp. unfold heft_order.
  set (F := fun p => heft_group g est parent_ids (priority_group prio nodes p)).
  assert (HF : forall p, exists l, F p = Some l /\ Permutation l (priority_group prio nodes p) /\ topological (above nodes parent_ids) l).
  { intros p. unfold F. set (G := priority_group prio nodes p).
    assert (Hsub : forall x y, above nodes parent_ids x y -> In x G -> In y G -> above G parent_ids x y).
    { intros x y (_ & _ & H) Hx Hy. split; auto. }
    assert (Hall : forallb (has_priority g est) G = true).
    { apply forallb_forall. intros n Hn. apply has_priority_head; [exact Hwf|]. apply Hh. apply (proj1 (priority_group_in _ _ _ _) Hn). }
    assert (Hsort : forall l, l = sort_by (ford_bellman G (heft_weight g est) parent_ids) G ->
       Permutation l G /\ topological (above nodes parent_ids) l).
    { intros l ->. split; [apply sort_perm|]. apply sort_topological. intros x y Hxy Hx Hy.
      assert (E := ford_bellman_edge G (heft_weight g est) parent_ids).
      assert (Hw : heft_weight g est x < 0).
      { apply heft_weight_negative; [exact He|]. rewrite forallb_forall in Hall. apply Hall. exact Hx. }
      specialize (E (NoDup_filter _ Hnd) (filter_topological _ _ _ Ht) x y (Hsub x y Hxy Hx Hy)). lia. }
    unfold heft_group. destruct G as [|a [|b G']] eqn:EG.
    - rewrite Hall. eexists. split; [reflexivity|]. apply Hsort. reflexivity.
    - exists [a]. split; [reflexivity|]. split; [apply Permutation_refl|].
      intros x y Hxy [<-|[]] [<-|[]]. exfalso. apply (above_irrefl nodes parent_ids Hnd Ht a Hxy).
    - rewrite Hall. eexists. split; [reflexivity|]. apply Hsort. reflexivity. }
  destruct (all_some_exists F (priority_values prio nodes)) as [ls Els].
  { intros p _. destruct (HF p) as (l & E & _). eauto. }
  rewrite Els. exists (concat ls). split; [reflexivity|].
  apply all_some_spec in Els. destruct (grouped_all prio nodes Hnd (above nodes parent_ids)) with (ls := ls) as (P & A & T).
  - intros x y Hxy _ _. apply Hp. exact Hxy.
  - clear -Els HF. induction Els as [|p l ps ls E Els IH]; constructor; auto. destruct (HF p) as (l' & E' & H).
    assert (l' = l) by congruence. subst. exact H.
  - auto.
Qed.
Print Assumptions heft_order_correct.

(** ** C50: path weights *)
(** [ford_bellman] computes, for every node, the least total weight of a downward path
    (with negated durations: the longest path), the last work of the path excepted. *)
Theorem path_weights_correct :
  forall nodes weights parent_ids, NoDup nodes -> topological (above nodes parent_ids) nodes ->
    forall v, In v nodes ->
      descends (above nodes parent_ids) weights v (ford_bellman nodes weights parent_ids v) /\
      forall z, descends (above nodes parent_ids) weights v z -> ford_bellman nodes weights parent_ids v <= z.
Proof.
  intros nodes weights parent_ids Hnd Ht v Hv.
  destruct (ford_bellman_spec nodes weights parent_ids Hnd Ht) as [H1 H2]. split; [apply H1|]. apply H2. exact Hv.
Qed.
Print Assumptions path_weights_correct.

(** a walk along prerequisites *)
Inductive walk (R : nat -> nat -> Prop) : list nat -> Prop :=
  | walk_one x : walk R [x]
  | walk_cons x y l : R x y -> walk R (y :: l) -> walk R (x :: y :: l).
Definition total (w : nat -> Z) (l : list nat) : Z := fold_right Z.add 0 (map w l).

Lemma first_min_spec key l m : first_min key l = Some m -> In m l /\ forall y, In y l -> key m <= key y.
Proof.
  destruct l as [|x r]; [discriminate|]. intros [= <-].
  assert (H : forall r x, In (fold_left (fun m y => if key y <? key m then y else m) r x) (x :: r) /\
     forall y, In y (x :: r) -> key (fold_left (fun m y => if key y <? key m then y else m) r x) <= key y).
  { clear. induction r as [|z r IH]; intros x; simpl.
    - split; [auto|]. intros y [<-|[]]. lia.
    - destruct (Z.ltb_spec (key z) (key x)) as [Hlt|Hge].
      + destruct (IH z) as [I1 I2]. split; [right; exact I1|]. intros y [<-|Hy]; [|apply I2; exact Hy].
        specialize (I2 z (or_introl eq_refl)). lia.
      + destruct (IH x) as [I1 I2]. split; [destruct I1 as [I1|I1]; [left; exact I1|right; right; exact I1]|].
        intros y [<-|[<-|Hy]]; [apply I2; left; reflexivity| |apply I2; right; exact Hy].
        specialize (I2 x (or_introl eq_refl)). lia. }
  apply H.
Qed.
Lemma first_min_some key l : l <> [] -> exists m, first_min key l = Some m.
Proof. destruct l; [congruence|]. simpl. eauto. Qed.
Lemma total_cons w x l : total w (x :: l) = w x + total w l.
Proof. reflexivity. Qed.

Section Critical.
  Variable g : graph.
  Variable nodes : list nat.
  Variable weights : nat -> Z.
  Variable parent_ids child_ids : nat -> list nat.
  Hypothesis Hnd : NoDup nodes.
  Hypothesis Ht : topological (above nodes parent_ids) nodes.
  Hypothesis Hc : forall x y, In x nodes -> (In y (child_ids x) <-> above nodes parent_ids x y).
  (** every work does not take negative time *)
  Hypothesis Hw : forall n, In n nodes -> weights n <= 0.
  (** heads with children have dependants *)
  Hypothesis Hch : forall x, In x nodes -> children g x <> [] -> exists y, above nodes parent_ids x y.
  Hypothesis Hch' : forall x y, above nodes parent_ids x y -> children g x <> [].
  Let R := above nodes parent_ids.
  Let cum := ford_bellman nodes weights parent_ids.

  Lemma walk_descends l x : walk R (l ++ [x]) -> descends R weights (hd x l) (total weights l).
  Proof.
    induction l as [|a l IH]; intros H; simpl; [apply descends_stop|]. rewrite total_cons.
    destruct l as [|b l']; simpl in *.
    - inversion H; subst. apply (descends_step R weights a x 0); [assumption|apply descends_stop].
    - inversion H; subst. apply (descends_step R weights a b); [assumption|]. apply IH. assumption.
  Qed.

  Lemma critical_loop_spec : forall fuel n later, In n nodes -> (exists p, nodes = p ++ later /\ In n later) -> (length later <= fuel)%nat ->
    exists l x, critical_loop fuel g cum child_ids n = Some l /\ walk R (l ++ [x]) /\ children g x = [] /\
      hd x l = n /\ total weights l = cum n.
  Proof.
    induction fuel as [|fuel IH]; intros n later Hn (p & En & Hl) Hlen.
    - destruct later; [destruct Hl|simpl in Hlen; lia].
    - cbn [critical_loop]. destruct (path_weights_correct nodes weights parent_ids Hnd Ht n Hn) as [D1 D2]. fold cum R in D1, D2.
      destruct (children g n) as [|k ks] eqn:Ek.
      + exists [], n. split; [reflexivity|]. split; [constructor|]. split; [exact Ek|]. split; [reflexivity|].
        change (0 = cum n). inversion D1 as [v E1 E2|v c z Hvc Hz E1 E2]; [reflexivity|]. destruct (Hch' n c Hvc Ek).
      + destruct (Hch n Hn) as [y Hy]; [rewrite Ek; discriminate|].
        destruct (first_min_some cum (child_ids n)) as [c Ec].
        { apply (Hc n y Hn) in Hy. intros E. rewrite E in Hy. destruct Hy. }
        rewrite Ec. apply first_min_spec in Ec as [Hcin Hcmin]. apply (Hc n c Hn) in Hcin as Hnc.
        assert (Hbef : comes_before nodes n c) by (apply Ht; [exact Hnc|apply Hnc|apply Hnc]).
        apply in_split in Hl as (l1 & l2 & El).
        assert (Hcl : In c l2).
        { assert (Hcn : In c nodes) by apply Hnc. rewrite En, El, app_assoc in Hcn. apply in_app_or in Hcn as [Hcn|[<-|Hcn]]; [| |exact Hcn].
          - exfalso. apply (comes_before_asym nodes n c Hnd Hbef). rewrite En, El, app_assoc. apply comes_before_app_lr; [exact Hcn|left; reflexivity].
          - destruct (above_irrefl nodes parent_ids Hnd Ht _ Hnc). }
        destruct (IH c l2) as (l & x & -> & W & Ex & Eh & Es).
        * apply Hnc.
        * exists (p ++ l1 ++ [n]). split; [rewrite En, El, <- !app_assoc; reflexivity|exact Hcl].
        * rewrite El, app_length in Hlen. simpl in Hlen. lia.
        * exists (n :: l), x. split; [reflexivity|]. split; [|split; [exact Ex|split; [reflexivity|]]].
          -- destruct l as [|b l']; simpl in *; constructor; try assumption; subst; assumption.
          -- rewrite total_cons, Es. apply Z.le_antisymm.
             ++ destruct (Z.le_gt_cases (weights n + cum c) (cum n)) as [H|H]; [exact H|]. exfalso.
                inversion D1 as [v E1 E2|v c' z Hvc Hz E1 E2].
                ** fold cum in E2. rewrite <- E2 in H. specialize (Hw n Hn).
                   assert (Q : cum c <= 0) by (apply (path_weights_correct nodes weights parent_ids Hnd Ht c); [apply Hnc|apply descends_stop]). lia.
                ** assert (Q : cum c' <= z) by (apply (path_weights_correct nodes weights parent_ids Hnd Ht c'); [apply Hvc|exact Hz]).
                   specialize (Hcmin c' (proj2 (Hc n c' Hn) Hvc)). lia.
             ++ apply (ford_bellman_edge nodes weights parent_ids Hnd Ht n c) in Hnc. fold cum in Hnc. lia.
  Qed.

  Lemma critical_path_spec : nodes <> [] ->
    exists l x, critical_path g nodes weights parent_ids child_ids = Some l /\ walk R (l ++ [x]) /\ children g x = [] /\
      forall q y, walk R (q ++ [y]) -> incl (q ++ [y]) nodes -> total weights l <= total weights q.
  Proof.
    intros Hne. unfold critical_path. fold cum. destruct (first_min_some cum nodes Hne) as [n En]. rewrite En.
    apply first_min_spec in En as [Hn Hmin].
    destruct (critical_loop_spec (S (length nodes)) n nodes Hn) as (l & x & -> & W & Ex & Eh & Es).
    - exists []. auto.
    - lia.
    - exists l, x. split; [reflexivity|]. split; [exact W|]. split; [exact Ex|]. intros q y Wq Hi.
      apply walk_descends in Wq. assert (Hq : In (hd y q) nodes).
      { apply Hi. destruct q; simpl; auto. }
      rewrite Es. specialize (Hmin _ Hq). assert (Q := proj2 (path_weights_correct nodes weights parent_ids Hnd Ht _ Hq) _ Wq).
      fold cum in Q. lia.
  Qed.
End Critical.

(** The critical path: a walk along prerequisites ending at a work without dependants
    (which is left out), whose duration is not less than that of any other walk. [duration]
    is the averaged duration of the chain of a head node; the weights are its negation.
    The two conditions on children say that a head node has children exactly when another
    head depends on its chain (so the finish work is not the end of a longer chain). *)
Theorem critical_path_correct :
  forall g nodes duration parent_ids child_ids,
    nodes <> [] -> NoDup nodes -> topological (above nodes parent_ids) nodes ->
    (forall x y, In x nodes -> (In y (child_ids x) <-> above nodes parent_ids x y)) ->
    (forall n, In n nodes -> 0 <= duration n) ->
    (forall x, In x nodes -> (children g x <> [] <-> exists y, above nodes parent_ids x y)) ->
    exists l x, critical_path g nodes (fun n => - duration n) parent_ids child_ids = Some l /\
      walk (above nodes parent_ids) (l ++ [x]) /\ (forall y, ~ above nodes parent_ids x y) /\
      forall q y, walk (above nodes parent_ids) (q ++ [y]) -> incl (q ++ [y]) nodes -> total duration q <= total duration l.
Proof.
  intros g nodes duration parent_ids child_ids Hne Hnd Ht Hc Hd Hch.
  destruct (critical_path_spec g nodes (fun n => - duration n) parent_ids child_ids Hnd Ht Hc) as (l & x & E & W & Ex & Hq).
  - intros n Hn. specialize (Hd n Hn). lia.
  - intros x Hx. apply Hch. exact Hx.
  - intros x y H. apply Hch; [apply H|eauto].
  - exact Hne.
  - exists l, x. split; [exact E|]. split; [exact W|]. split.
    + intros y H. assert (Q : children g x <> []) by (apply Hch; [apply H|eauto]). congruence.
    + assert (Hneg : forall l, total (fun n => - duration n) l = - total duration l).
      { induction l0 as [|a l0 IH]; [reflexivity|]. rewrite !total_cons, IH. lia. }
      intros q y Wq Hi. specialize (Hq q y Wq Hi). rewrite !Hneg in Hq. lia.
Qed.
Print Assumptions critical_path_correct.

(** ** C24 *)
Fixpoint table_ok (child_ids : nat -> list nat) (dur : nat -> Z) (t : lft_table) : Prop :=
  match t with
  | [] => True
  | (n, (f, s)) :: r =>
      s = f - dur n /\ (forall c fc sc, In c (child_ids n) -> lft_get r c = Some (fc, sc) -> f <= sc) /\ table_ok child_ids dur r
  end.
Lemma min_default0_le l x : In x l -> min_default0 l <= x.
Proof.
  destruct l as [|a l]; [intros []|]. simpl.
  assert (H : forall l a, fold_left Z.min l a <= a /\ forall x, In x l -> fold_left Z.min l a <= x).
  { clear. induction l as [|b l IH]; intros a; simpl; [split; [lia|intros x []]|]. destruct (IH (Z.min a b)) as [I1 I2]. split; [lia|].
    intros x [<-|Hx]; [lia|auto]. }
  intros [<-|Hx]; [exact (proj1 (H l a))|exact (proj2 (H l a) x Hx)].
Qed.
Lemma lft_loop_spec child_ids dur : forall r t, table_ok child_ids dur t ->
  table_ok child_ids dur (lft_loop child_ids dur r t) /\ map fst (lft_loop child_ids dur r t) = rev r ++ map fst t.
Proof.
  induction r as [|n r IH]; intros t Hok; cbn [lft_loop]; [split; [exact Hok|reflexivity]|].
  set (f := min_default0 (known_lst t (child_ids n))). destruct (IH ((n, (f, f - dur n)) :: t)) as [I1 I2].
  - cbn [table_ok]. split; [reflexivity|]. split; [|exact Hok]. intros c fc sc Hcin Hg. unfold f. apply min_default0_le.
    unfold known_lst. apply in_concat. exists [sc]. split; [|left; reflexivity]. apply in_map_iff. exists c. rewrite Hg. auto.
  - split; [exact I1|]. rewrite I2. simpl. rewrite <- app_assoc. reflexivity.
Qed.
Lemma lft_get_in t n : In n (map fst t) -> exists v, lft_get t n = Some v.
Proof.
  induction t as [|[k v] t IH]; simpl; intros H; [destruct H|]. destruct (Nat.eqb_spec k n); [eauto|]. destruct H; [congruence|auto].
Qed.
Lemma table_edge child_ids dur t x y : table_ok child_ids dur t -> NoDup (map fst t) -> comes_before (map fst t) x y ->
  In y (child_ids x) -> lft_of t x <= lft_of t y - dur y.
Proof.
  revert x. induction t as [|[n [f s]] t IH]; intros x Hok Hnd Hb Hy.
  - destruct Hb as ([|? ?] & ? & ? & E); discriminate.
  - cbn [table_ok] in Hok. destruct Hok as (Hs & Hc & Hok). cbn [map] in *. inversion Hnd as [|? ? Hn Hnd']; subst.
    cbn [fst] in *.
    assert (Hyt : In y (map fst t)).
    { destruct Hb as (p & q & r & E). destruct p; simpl in E; injection E as _ E; rewrite E; apply in_or_app; right; [left; reflexivity|].
      right. apply in_or_app. right. left. reflexivity. }
    assert (Hny : n <> y) by (intros ->; contradiction).
    unfold lft_of. cbn [lft_get]. rewrite (proj2 (Nat.eqb_neq n y) Hny).
    destruct (Nat.eqb_spec n x) as [->|Hne].
    + destruct (lft_get_in t y Hyt) as [[fy sy] E]. rewrite E. specialize (Hc y fy sy Hy E).
      assert (sy = fy - dur y).
      { clear -E Hok. induction t as [|[k [a b]] t IH]; [discriminate|]. cbn [lft_get table_ok] in *. destruct Hok as (H1 & _ & H2).
        destruct (Nat.eqb_spec k y) as [->|]; [injection E as <- <-; exact H1|auto]. }
      lia.
    + apply IH; auto. destruct Hb as (p & q & r & E). destruct p as [|a p]; simpl in E; injection E as E1 E2; [congruence|].
      exists p, q, r. exact E2.
Qed.

Theorem lft_order_correct :
  forall prio parent_ids child_ids dur nodes,
    nodes <> [] -> NoDup nodes -> topological (above nodes parent_ids) nodes ->
    (forall x y, above nodes parent_ids x y -> In y (child_ids x)) ->
    (forall n, In n nodes -> 1 <= dur n) ->
    (forall x y, above nodes parent_ids x y -> prio x <= prio y) ->
    exists l, lft_order prio child_ids dur nodes = Some l /\
      Permutation l nodes /\ topological (above nodes parent_ids) l /\ ascending prio l.
Proof.
  intros prio parent_ids child_ids dur nodes Hne Hnd Ht Hc Hdur Hp. unfold lft_order, map_lft_lst.
  destruct (rev nodes) as [|last r] eqn:Er.
  { destruct nodes; [congruence|]. simpl in Er. destruct (rev nodes); discriminate. }
  set (tt := fold_right Z.add 0 (map dur nodes)).
  destruct (lft_loop_spec child_ids dur r [(last, (tt, tt - dur last))]) as [T1 T2].
  { cbn [table_ok]. split; [reflexivity|]. split; [|exact I]. intros c fc sc _ H. discriminate. }
  set (t := lft_loop child_ids dur r [(last, (tt, tt - dur last))]) in *.
  assert (Tk : map fst t = nodes).
  { rewrite T2. simpl. rewrite <- (rev_involutive nodes), Er. reflexivity. }
  eexists. split; [reflexivity|].
  assert (HF : Forall2 (fun p l => Permutation l (priority_group prio nodes p) /\ topological (above nodes parent_ids) l)
     (priority_values prio nodes) (map (fun p => sort_by (lft_of t) (priority_group prio nodes p)) (priority_values prio nodes))).
  2: { destruct (grouped_all prio nodes Hnd (above nodes parent_ids)) with (ls := map (fun p => sort_by (lft_of t) (priority_group prio nodes p))
         (priority_values prio nodes)) as (P & A & T); auto. }
  induction (priority_values prio nodes) as [|p ps IH]; simpl; constructor; auto. split; [apply sort_perm|].
  apply sort_topological. intros x y Hxy Hx Hy.
  assert (H := table_edge child_ids dur t x y T1). rewrite Tk in H. specialize (H Hnd).
  assert (comes_before nodes x y) by (apply Ht; [exact Hxy|apply Hxy|apply Hxy]). specialize (H H0 (Hc x y Hxy)).
  specialize (Hdur y (proj1 (proj2 Hxy))). lia.
Qed.
Print Assumptions lft_order_correct.

(** ** C25 *)
Lemma add_new_in xs l n : In n (add_new xs l) <-> In n xs \/ In n l.
Proof.
  unfold add_new. revert l. induction xs as [|x xs IH]; intros l; simpl; [tauto|]. rewrite IH.
  destruct (mem x l) eqn:E.
  - apply mem_in in E. intuition. subst. auto.
  - rewrite in_app_iff. simpl. intuition.
Qed.
Lemma sorted_unique {A} (key : A -> Z) l1 l2 : ascending key l1 -> ascending key l2 -> Permutation l1 l2 ->
  (forall x y, In x l1 -> In y l1 -> key x = key y -> x = y) -> l1 = l2.
Proof.
  intros H1. revert l2. induction H1 as [|x l1 H1 IH Hf]; intros l2 H2 HP Hinj.
  - apply Permutation_nil in HP. congruence.
  - destruct l2 as [|y l2]; [apply Permutation_sym, Permutation_nil in HP; discriminate|].
    inversion H2 as [|? ? H2' Hf2]; subst. rewrite Forall_forall in Hf, Hf2.
    assert (x = y).
    { assert (Hx : In x (y :: l2)) by (eapply Permutation_in; [exact HP|left; reflexivity]).
      assert (Hy : In y (x :: l1)) by (eapply Permutation_in; [apply Permutation_sym; exact HP|left; reflexivity]).
      destruct Hx as [Hx|Hx]; [congruence|]. destruct Hy as [Hy|Hy]; [congruence|].
      apply Hinj; [left; reflexivity|right; exact Hy|]. apply Hf in Hy. apply Hf2 in Hx. lia. }
    subst. f_equal. apply IH; [exact H2'|eapply Permutation_cons_inv; exact HP|]. intros a b Ha Hb. apply Hinj; right; assumption.
Qed.

Section Sampled.
  Variable prio : nat -> Z.
  Variable parent_ids child_ids : nat -> list nat.
  Variable pick : nat -> list nat -> nat.
  Variable first : nat.
  Variable others : list nat.
  Let nodes := first :: others.
  Hypothesis Hnd : NoDup nodes.
  Hypothesis Ht : topological (above nodes parent_ids) nodes.
  Hypothesis Hpn : forall x y, In y nodes -> In x (parent_ids y) -> In x nodes.
  Hypothesis Hc : forall x y, In x nodes -> (In y (child_ids x) <-> above nodes parent_ids x y).
  Hypothesis Hsrc : forall n, In n nodes -> parent_ids n = [] -> n = first.
  Hypothesis Hpick : forall k l, l <> [] -> In (pick k l) l.
  Hypothesis Hp : forall x y, above nodes parent_ids x y -> prio x <= prio y.

  Record sampled (cands sel : list nat) : Prop := {
    sm_nodup : NoDup sel;
    sm_incl : incl sel nodes;
    sm_parents : forall y p, In y sel -> In p (parent_ids y) -> comes_before sel p y;
    sm_cands : forall n, In n cands <-> In n nodes /\ ~ In n sel /\ (n = first \/ exists p, In p (parent_ids n) /\ In p sel);
    sm_asc : ascending prio sel;
    sm_low : forall a b, In a sel -> In b nodes -> ~ In b sel -> prio a <= prio b }.

  Let eligible cands sel := filter (fun n => forallb (fun p => mem p sel) (parent_ids n)) cands.

  Lemma eligible_in cands sel n : In n (eligible cands sel) <-> In n cands /\ forall p, In p (parent_ids n) -> In p sel.
  Proof.
    unfold eligible. rewrite filter_In, forallb_forall. split; intros [H1 H2]; split; auto; intros p Hp'; apply mem_in; auto.
  Qed.

  (** below every node that is not selected there is an eligible one *)
  Lemma eligible_below cands sel : sampled cands sel ->
    forall k b, (pos nodes b < k)%nat -> In b nodes -> ~ In b sel -> exists e, In e (eligible cands sel) /\ prio e <= prio b.
  Proof.
    intros HS. induction k as [|k IH]; intros b Hk Hb Hns; [lia|].
    destruct (forallb (fun p => mem p sel) (parent_ids b)) eqn:E.
    - rewrite forallb_forall in E. exists b. split; [|lia]. apply eligible_in. split; [|intros p Hp'; apply mem_in; auto].
      apply (sm_cands _ _ HS). split; [exact Hb|]. split; [exact Hns|].
      destruct (parent_ids b) as [|p ps] eqn:Ep; [left; apply Hsrc; assumption|]. right. exists p. split; [left; reflexivity|].
      apply mem_in. apply E. left. reflexivity.
    - assert (Hex : exists p, In p (parent_ids b) /\ ~ In p sel).
      { clear -E. induction (parent_ids b) as [|p ps IHp]; [discriminate|]. simpl in E. destruct (mem p sel) eqn:Em.
        - destruct (IHp E) as (q & Hq & Hn). exists q. split; [right; exact Hq|exact Hn].
        - exists p. split; [left; reflexivity|]. apply mem_nin. exact Em. }
      destruct Hex as (p & Hpb & Hps). assert (Hpin : In p nodes) by (eapply Hpn; eauto).
      assert (Hab : above nodes parent_ids p b) by (split; auto).
      assert (Hbef := Ht p b Hab Hpin Hb). apply comes_before_pos in Hbef as (_ & _ & Hpos); [|exact Hnd].
      destruct (IH p) as (e & He & Hpe); [lia|exact Hpin|exact Hps|]. exists e. split; [exact He|]. specialize (Hp p b Hab). lia.
  Qed.

  Lemma sample_loop_spec : forall fuel cands sel, sampled cands sel -> (length nodes <= length sel + fuel)%nat ->
    exists l, sample_loop prio parent_ids child_ids pick fuel cands sel = Some l /\ Permutation l nodes /\
      (forall y p, In y l -> In p (parent_ids y) -> comes_before l p y) /\ ascending prio l.
  Proof.
    induction fuel as [|fuel IH]; intros cands sel HS Hlen.
    - destruct cands as [|c cands'] eqn:Ec.
      + simpl. exists sel. split; [reflexivity|]. split; [|split; [apply HS|apply HS]].
        apply NoDup_Permutation_bis; [apply HS|lia|apply HS].
      + exfalso. assert (Hc0 : In c (c :: cands')) by (left; reflexivity). rewrite <- Ec in *. apply (sm_cands _ _ HS) in Hc0 as (H1 & H2 & _).
        assert (Hn : NoDup (c :: sel)) by (constructor; [exact H2|apply HS]).
        assert (Hi : incl (c :: sel) nodes) by (intros x [<-|Hx]; [exact H1|apply HS; exact Hx]).
        apply (NoDup_incl_length Hn) in Hi. simpl in Hi. simpl in Hlen. lia.
    - destruct cands as [|c cands'] eqn:Ec.
      + simpl. exists sel. split; [reflexivity|]. split; [|split; [apply HS|apply HS]].
        apply NoDup_Permutation; [apply HS|exact Hnd|]. intros x. split; [apply HS|]. intros Hx.
        destruct (in_dec Nat.eq_dec x sel) as [H|H]; [exact H|]. exfalso.
        destruct (eligible_below [] sel HS (S (pos nodes x)) x) as (e & He & _); auto.
      + cbn [sample_loop]. rewrite <- Ec in *. fold (eligible cands sel).
        assert (Hc0 : In c cands) by (rewrite Ec; left; reflexivity). apply (sm_cands _ _ HS) in Hc0 as (Hcn & Hcs & _).
        destruct (eligible_below cands sel HS (S (pos nodes c)) c) as (e0 & He0 & _); auto.
        destruct (first_min_some prio (eligible cands sel)) as [m Em]; [intros E; rewrite E in He0; destruct He0|].
        rewrite Em. apply first_min_spec in Em as [Hm Hmin].
        set (best := filter (fun n => prio n =? prio m) (eligible cands sel)).
        set (s := pick (length sel) best).
        assert (Hs : In s best).
        { apply Hpick. assert (In m best) by (apply filter_In; split; [exact Hm|apply Z.eqb_refl]). intros E. rewrite E in H. destruct H. }
        apply filter_In in Hs as [Hs Hsm]. apply Z.eqb_eq in Hsm. apply eligible_in in Hs as [Hsc Hsp].
        assert (Hsn := Hsc). apply (sm_cands _ _ HS) in Hsn as (Hsn & Hss & Hsw).
        assert (Hchild : forall y, In y (child_ids s) -> In y nodes /\ ~ In y sel /\ y <> s /\ In s (parent_ids y)).
        { intros y Hy. apply (Hc s y Hsn) in Hy as Hy'. assert (Hy2 := Hy'). destruct Hy' as (_ & Hyn & Hsy). split; [exact Hyn|]. split; [|split; [|exact Hsy]].
          - intros Hin. apply Hss. apply (comes_before_in sel s y). apply (sm_parents _ _ HS y s Hin Hsy).
          - intros E. rewrite E in Hy2. apply (above_irrefl nodes parent_ids Hnd Ht s Hy2). }
        apply IH.
        * constructor.
          -- apply nodup_app_i; [apply HS|repeat constructor; intros []|]. intros x Hx [<-|[]]. contradiction.
          -- intros x Hx. apply in_app_or in Hx as [Hx|[<-|[]]]; [apply HS; exact Hx|exact Hsn].
          -- intros y p Hy Hpy. apply in_app_or in Hy as [Hy|[<-|[]]].
             ++ apply comes_before_app_l. apply HS; assumption.
             ++ apply comes_before_app_lr; [apply Hsp; exact Hpy|left; reflexivity].
          -- intros n. rewrite add_new_in, filter_In, negb_true_iff, Nat.eqb_neq, (sm_cands _ _ HS), in_app_iff. split.
             ++ intros [H|[(H1 & H2 & H3) H4]].
                ** apply Hchild in H as (H1 & H2 & H3 & H4). split; [exact H1|]. split; [intros [H|[H|[]]]; congruence|].
                   right. exists s. split; [exact H4|]. apply in_or_app. right. left. reflexivity.
                ** split; [exact H1|]. split; [intros [H|[H|[]]]; congruence|]. destruct H3 as [H3|(p & H5 & H6)]; [auto|].
                   right. exists p. split; [exact H5|]. apply in_or_app. left. exact H6.
             ++ intros (H1 & H2 & H3). assert (Hns : n <> s) by (intros ->; apply H2; right; left; reflexivity).
                assert (Hn : ~ In n sel) by (intros H; apply H2; left; exact H).
                destruct H3 as [H3|(p & H5 & H6)]; [right; auto|]. apply in_app_or in H6 as [H6|[<-|[]]].
                ** right. split; [|exact Hns]. split; [exact H1|]. split; [exact Hn|]. right. exists p. auto.
                ** left. apply Hc; [exact Hsn|]. split; auto.
          -- assert (Hall : forall a, In a sel -> prio a <= prio s) by (intros a Ha; apply (sm_low _ _ HS); assumption).
             assert (Ha := sm_asc _ _ HS). revert Ha Hall. generalize s. clear. intros s. induction sel as [|a sel IHs]; intros Ha Hall; simpl; [repeat constructor|].
             apply StronglySorted_inv in Ha as [Ha Hf]. constructor; [apply IHs; auto; intros; apply Hall; right; assumption|].
             apply Forall_app. split; [exact Hf|]. repeat constructor. apply Hall. left. reflexivity.
          -- intros a b Ha Hb Hbs. assert (Hbn : ~ In b sel) by (intros H; apply Hbs; apply in_or_app; left; exact H).
             apply in_app_or in Ha as [Ha|[<-|[]]]; [apply (sm_low _ _ HS); assumption|].
             destruct (eligible_below cands sel HS (S (pos nodes b)) b) as (e & He & Hpe); auto. specialize (Hmin e He). lia.
        * rewrite app_length. simpl length in *. lia.
  Qed.

  Lemma lft_randomized_spec :
    exists l, lft_randomized prio parent_ids child_ids pick nodes = Some l /\ Permutation l nodes /\
      topological (above nodes parent_ids) l /\ ascending prio l.
  Proof.
    unfold lft_randomized. unfold nodes at 1. cbv iota. fold nodes.
    destruct (sample_loop_spec (S (length nodes)) [first] []) as (l & -> & HP & Hpar & Ha).
    - constructor.
      + constructor.
      + intros x [].
      + intros y p [].
      + intros n. simpl. split.
        * intros [<-|[]]. split; [left; reflexivity|]. split; [tauto|left; reflexivity].
        * intros (_ & _ & [->|(p & _ & [])]). left. reflexivity.
      + constructor.
      + intros a b [].
    - simpl. lia.
    - assert (Hl : forall x, In x l <-> In x nodes) by (intros x; split; apply Permutation_in; [exact HP|apply Permutation_sym; exact HP]).
      assert (Hnl : NoDup l) by (eapply Permutation_NoDup; [apply Permutation_sym; exact HP|exact Hnd]).
      assert (Hall : forallb (fun n => mem n l) nodes = true).
      { apply forallb_forall. intros n Hn. apply mem_in. apply Hl. exact Hn. }
      rewrite Hall. exists l. split.
      + f_equal. apply (sorted_unique (fun n => Z.of_nat (index_of l n))).
        * apply sort_ascending.
        * assert (Hidx : forall d, NoDup (d ++ l) -> ascending (fun n => Z.of_nat (index_of (d ++ l) n)) l).
          { clear. induction l as [|x l IH]; intros d Hn; [constructor|]. constructor.
            - specialize (IH (d ++ [x])). rewrite <- app_assoc in IH. apply IH. exact Hn.
            - apply Forall_forall. intros y Hy. change (index_of (d ++ x :: l)) with (pos (d ++ x :: l)).
              assert (comes_before (d ++ x :: l) x y).
              { apply comes_before_app_r. apply in_split in Hy as (p & q & ->). exists [], p, q. reflexivity. }
              apply comes_before_pos in H; [|exact Hn]. lia. }
          apply (Hidx []). exact Hnl.
        * eapply Permutation_trans; [apply sort_perm|apply Permutation_sym; exact HP].
        * intros x y Hx Hy E. apply (Permutation_in _ (sort_perm _ _)) in Hx, Hy. apply Hl in Hx, Hy.
          destruct (Nat.eq_dec x y) as [|Hne]; [assumption|]. exfalso. change (index_of l) with (pos l) in E.
          destruct (comes_before_total l x y Hx Hy Hne) as [H|H]; apply comes_before_pos in H; try exact Hnl; lia.
      + split; [exact HP|]. split; [|exact Ha]. intros x y Hxy Hx Hy. apply Hpar; [exact Hy|apply Hxy].
  Qed.
End Sampled.

(** [first] is the start work: the only one without prerequisites. [pick] is the random
    generator: it may return any of the candidates it is given. *)
Theorem lft_randomized_correct :
  forall prio parent_ids child_ids pick first others,
    let nodes := first :: others in
    NoDup nodes -> topological (above nodes parent_ids) nodes ->
    (forall x y, In y nodes -> In x (parent_ids y) -> In x nodes) ->
    (forall x y, In x nodes -> (In y (child_ids x) <-> above nodes parent_ids x y)) ->
    (forall n, In n nodes -> parent_ids n = [] -> n = first) ->
    (forall k l, l <> [] -> In (pick k l) l) ->
    (forall x y, above nodes parent_ids x y -> prio x <= prio y) ->
    exists l, lft_randomized prio parent_ids child_ids pick nodes = Some l /\
      Permutation l nodes /\ topological (above nodes parent_ids) l /\ ascending prio l.
Proof. intros. apply lft_randomized_spec; assumption. Qed.
Print Assumptions lft_randomized_correct.

(** ** Examples *)
(** 0 is the start, 1 and 2 depend on it, 3 on both, 4 on 2, 5 (the finish) on 3 and 4. *)
Definition fx_parents (n : nat) : list nat :=
  match n with 1 => [0] | 2 => [0] | 3 => [1; 2] | 4 => [2] | 5 => [3; 4] | _ => [] end%nat.
Definition fx_children (n : nat) : list nat :=
  match n with 0 => [1; 2] | 1 => [3] | 2 => [3; 4] | 3 => [5] | 4 => [5] | _ => [] end%nat.
Definition fx_graph : graph :=
  Gr [Ed 0 1 0 FS; Ed 0 2 0 FS; Ed 1 3 0 FS; Ed 2 3 0 FS; Ed 2 4 0 FS; Ed 3 5 0 FS; Ed 4 5 0 FS]
     (fun _ => WU false [Req 0 1 1 2] 1).
Definition fx_est (n : nat) (team : list worker) : Z :=
  match n with 1%nat => 5 | 2%nat => 3 | 3%nat => 4 | 4%nat => 20 | _ => 0 end.
Definition fx_nodes : list nat := [0; 1; 2; 3; 4; 5]%nat.
Lemma fx_above x y : above fx_nodes fx_parents x y <-> In (x, y) [(0, 1); (0, 2); (1, 3); (2, 3); (2, 4); (3, 5); (4, 5)]%nat.
Proof.
  unfold above, fx_nodes. split.
  - intros (_ & Hy & Hp). simpl in Hy. repeat destruct Hy as [<-|Hy]; simpl in Hp; repeat destruct Hp as [<-|Hp]; simpl; try tauto.
  - intros H. simpl in H. repeat destruct H as [[= <- <-]|H]; simpl; try tauto.
Qed.
Example fx_hypotheses :
  NoDup fx_nodes /\ topological (above fx_nodes fx_parents) fx_nodes /\ estimator_ok fx_est /\ chains_wf fx_graph /\
  (forall x y, In x fx_nodes -> (In y (fx_children x) <-> above fx_nodes fx_parents x y)) /\
  (forall n, In n fx_nodes -> fx_parents n = [] -> n = 0%nat) /\
  heft_order fx_graph fx_est (fun _ => 0) fx_parents fx_nodes = Some [0; 2; 4; 1; 3; 5]%nat /\
  lft_order (fun _ => 0) fx_children (fun n => fx_est n [] + 1) fx_nodes = Some [0; 2; 1; 3; 4; 5]%nat /\
  lft_randomized (fun _ => 0) fx_parents fx_children (fun k l => last l 0%nat) fx_nodes = Some [0; 2; 4; 1; 3; 5]%nat /\
  critical_path fx_graph fx_nodes (fun n => - (2 * fx_est n [] + 2)) fx_parents fx_children = Some [0; 2; 4]%nat.
Proof.
  split; [repeat constructor; simpl; intuition discriminate|].
  split.
  { intros x y H _ _. apply fx_above in H. simpl in H. repeat destruct H as [[= <- <-]|H]; [..|destruct H];
      [exists [], [], [2;3;4;5]%nat|exists [], [1]%nat, [3;4;5]%nat|exists [0]%nat, [2]%nat, [4;5]%nat|exists [0;1]%nat, [], [4;5]%nat|
       exists [0;1]%nat, [3]%nat, [5]%nat|exists [0;1;2]%nat, [4]%nat, []|exists [0;1;2;3]%nat, [], []]; reflexivity. }
  split.
  { intros n team. change TIME_INF with 2000000000. unfold fx_est. destruct n as [|[|[|[|[|n]]]]]; lia. }
  split.
  { assert (H : forall x y, ~ inseparable fx_graph x y).
    { intros x y (e & He & Hi & _). simpl in He. repeat destruct He as [<-|He]; try discriminate. destruct He. }
    split; [intros x x' y H1; destruct (H _ _ H1)|]. split; [intros x y y' H1; destruct (H _ _ H1)|].
    intros x Hx. apply clos_trans_t1n in Hx. inversion Hx as [? H1|? ? H1]; destruct (H _ _ H1). }
  split.
  { intros x y Hx. rewrite fx_above. unfold fx_nodes in Hx. simpl in Hx.
    repeat destruct Hx as [<-|Hx]; simpl; try (split; [intuition congruence|intros Hy; repeat destruct Hy as [[= <-]|Hy]; intuition congruence]). }
  split.
  { intros n Hn. unfold fx_nodes in Hn. simpl in Hn. repeat destruct Hn as [<-|Hn]; simpl; try discriminate; [reflexivity|destruct Hn]. }
  repeat split; vm_compute; reflexivity.
Qed.
