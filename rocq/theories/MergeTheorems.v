(** C92, C93: merging the stages of works in schedules. *)
From Coq Require Import ZArith QArith Qround List Bool Ascii String Permutation Sorted Lia Lqa Setoid.
From Verif Require Import GraphModel ScheduleSpec Digraph RestructModel RestructSplit RestructProofs RestructTheorems
  StableSort MergeModel MergeSpec MergeProofs.
Import ListNotations.
Local Open Scope Z_scope.

(** C92. The rows belong to tasks whose ids do not contain the separator (nor end with its
    beginning, see [stage_suffix_confuses]); names of stages end in numbers. Whatever order sets
    and quick sorts give, merging gives exactly one row for every task, in the order of starts,
    which is merged from all the rows of the task. *)
Theorem stages_merged sort listing table_sort rows work :
  (forall key l, Permutation (sort key l) l /\ StronglySorted (fun a b => key a <= key b) (sort key l)) ->
  (forall l, Permutation (listing l) l) ->
  (forall l, Permutation (table_sort l) l /\ StronglySorted (fun a b => rw_start a <= rw_start b) (table_sort l)) ->
  (forall r, In r rows -> clean (work r) /\ row_of_task (work r) r) ->
  (forall r, In r rows -> (1 < List.length (filter (fun x => str_eqb (work x) (work r)) rows))%nat ->
     get_stage_num (rw_granular r) <> None) ->
  exists out ids, fix_split_tasks sort listing table_sort rows = Some out /\
    NoDup ids /\ (forall i, In i ids <-> exists r, In r rows /\ work r = i) /\
    StronglySorted (fun a b => rw_start a <= rw_start b) out /\
    Forall2 (fun i r => merged (filter (fun x => str_eqb (work x) i) rows) r /\
                        ((1 < List.length (filter (fun x => str_eqb (work x) i) rows))%nat -> rw_id r = i)) ids out.
Proof.
  intros Hs Hl Ht Hw Hp. destruct (fix_split_spec sort Hs listing Hl table_sort Ht rows work Hw) as (out & ids & E & N & I & S & F).
  { intros r Hr Hlen. unfold parses. specialize (Hp r Hr Hlen). destruct (get_stage_num (rw_granular r)); [reflexivity|contradiction]. }
  exists out, ids. split; [exact E|]. split; [exact N|]. split; [exact I|]. split; [exact S|].
  clear - F Hw. induction F as [|i r ids out [_ M] F IH]; constructor; [|exact IH]. split; [exact M|].
  intros Hlen. destruct (mg_object _ _ M Hlen) as (x & X & _ & _ & _ & _ & _ & ->).
  apply filter_In in X as [X W]. apply str_eqb_spec in W. subst i. destruct (Hw x X) as [C T]. apply first_part_task; assumption.
Qed.
Print Assumptions stages_merged.
(** The same with dates: merging the rows, all of whose times are counted from day [d]. *)
Definition dated (d : Z) (x y : row) : Prop :=
  rw_start y = d + rw_start x /\ rw_finish y = d + rw_finish x /\ rw_duration y = rw_duration x /\ rw_id y = rw_id x /\ rw_name y = rw_name x /\
  rw_granular y = rw_granular x /\ rw_volume y = rw_volume x /\ rw_cost y = rw_cost x /\ rw_workers y = rw_workers x /\ rw_object y = rw_object x.
Lemma offset_back d r : offset_row (- d) (offset_row d r) = r.
Proof. destruct r. unfold offset_row. cbn. f_equal; lia. Qed.
Theorem stages_merged_with_dates sort listing table_sort rows work d :
  (forall key l, Permutation (sort key l) l /\ StronglySorted (fun a b => key a <= key b) (sort key l)) ->
  (forall l, Permutation (listing l) l) ->
  (forall l, Permutation (table_sort l) l /\ StronglySorted (fun a b => rw_start a <= rw_start b) (table_sort l)) ->
  (forall r, In r rows -> clean (work r) /\ row_of_task (work r) r) ->
  (forall r, In r rows -> (1 < List.length (filter (fun x => str_eqb (work x) (work r)) rows))%nat ->
     get_stage_num (rw_granular r) <> None) ->
  exists out ids, merged_stages_datetime_df sort listing table_sort rows d = Some out /\
    NoDup ids /\ (forall i, In i ids <-> exists r, In r rows /\ work r = i) /\
    StronglySorted (fun a b => rw_start a <= rw_start b) out /\
    Forall2 (fun i r => exists rs, Forall2 (dated d) (filter (fun x => str_eqb (work x) i) rows) rs /\ merged rs r /\
                        ((1 < List.length rs)%nat -> rw_id r = i)) ids out.
Proof.
  intros Hs Hl Ht Hw Hp. set (work' := fun r => work (offset_row (- d) r)).
  assert (Fl : forall i l, filter (fun x => str_eqb (work' x) i) (map (offset_row d) l) = map (offset_row d) (filter (fun x => str_eqb (work x) i) l)).
  { intros i l. induction l as [|x l IH]; [reflexivity|]. cbn [map].
    change (filter (fun x0 => str_eqb (work' x0) i) (offset_row d x :: map (offset_row d) l)) with
      (if str_eqb (work' (offset_row d x)) i then offset_row d x :: filter (fun x0 => str_eqb (work' x0) i) (map (offset_row d) l) else filter (fun x0 => str_eqb (work' x0) i) (map (offset_row d) l)).
    change (filter (fun x0 => str_eqb (work x0) i) (x :: l)) with (if str_eqb (work x) i then x :: filter (fun x0 => str_eqb (work x0) i) l else filter (fun x0 => str_eqb (work x0) i) l).
    rewrite IH. replace (work' (offset_row d x)) with (work x) by (unfold work'; rewrite offset_back; reflexivity). destruct (str_eqb (work x) i); reflexivity. }
  destruct (stages_merged sort listing table_sort (map (offset_row d) rows) work' Hs Hl Ht) as (out & ids & E & N & I & S & F).
  - intros r Hr. apply in_map_iff in Hr as (x & <- & Hx). unfold work'. rewrite offset_back. exact (Hw x Hx).
  - intros r Hr. apply in_map_iff in Hr as (x & <- & Hx). rewrite Fl, map_length. unfold work'. rewrite offset_back. intros L. exact (Hp x Hx L).
  - exists out, ids. split; [exact E|]. split; [exact N|]. split; [|split; [exact S|]].
    + intros i. rewrite I. split.
      * intros (r & Hr & <-). apply in_map_iff in Hr as (x & <- & Hx). exists x. split; [exact Hx|]. unfold work'. rewrite offset_back. reflexivity.
      * intros (x & Hx & <-). exists (offset_row d x). split; [apply in_map, Hx|]. unfold work'. rewrite offset_back. reflexivity.
    + clear - F Fl. induction F as [|i r ids out [M1 M2] F IH]; constructor; [|exact IH]. rewrite Fl in M1, M2.
      exists (map (offset_row d) (filter (fun x => str_eqb (work x) i) rows)). split; [|split; [exact M1|exact M2]].
      generalize (filter (fun x => str_eqb (work x) i) rows). clear. intros l. induction l as [|x l IH]; constructor; [|exact IH].
      unfold dated, offset_row. cbn. repeat split.
Qed.
Print Assumptions stages_merged_with_dates.

(** ** The schedule of a restructured graph *)
(** The id of a stage as a string. *)
Definition id_string (name : nat -> str) (i : nid) : str :=
  match snd i with None => name (fst i) | Some k => stage_id (name (fst i)) k end.
(** What edge [e] demands of the merged rows [a] of the earlier and [b] of the later work. *)
Definition kept (use_lag : bool) (e : redge) (a b : row) : Prop :=
  match re_type e with
  | FS => rw_finish a + Qceiling (re_lag e) <= rw_start b
  | IFS => rw_finish a <= rw_start b
  | SS => rw_start a <= rw_start b
  | FF => rw_finish a <= rw_finish b
  | FFS => if use_lag then rw_start a <= rw_start b /\ rw_finish a <= rw_finish b else rw_finish a <= rw_start b
  end.

Lemma chain_order {A} : forall (m l : list A), NoDup l -> Permutation l m ->
  (forall l1 x y l2, m = l1 ++ x :: y :: l2 -> comes_before l x y) -> l = m.
Proof.
  induction m as [|a m IH]; intros l N P H.
  - apply Permutation_sym, Permutation_nil in P. exact P.
  - destruct l as [|h l]; [apply Permutation_nil in P; discriminate|].
    assert (h = a).
    { assert (Hh : In h (a :: m)) by (apply (Permutation_in h P); left; reflexivity).
      destruct Hh as [->|Hh]; [reflexivity|]. exfalso. apply in_split in Hh as (m1 & m2 & E).
      assert (X : exists p, comes_before (h :: l) p h).
      { destruct m1 as [|c m1] using rev_ind.
        - exists a. apply (H [] a h m2). rewrite E. reflexivity.
        - exists c. apply (H (a :: m1) c h m2). rewrite E, <- app_assoc. reflexivity. }
      destruct X as [p (l1 & l2 & l3 & E1)]. inversion N as [|? ? N1 N2]; subst. apply N1.
      destruct l1 as [|z l1]; simpl in E1; injection E1 as _ ->; apply in_or_app; right; [left; reflexivity|].
      right. apply in_or_app. right. left. reflexivity. }
    subst h. f_equal. inversion N as [|? ? N1 N2]; subst. apply IH; [exact N2|apply Permutation_cons_inv in P; exact P|].
    intros l1 x y l2 E. destruct (H (a :: l1) x y l2) as (k1 & k2 & k3 & E1); [rewrite E; reflexivity|].
    destruct k1 as [|z k1]; simpl in E1; injection E1 as E0 E1.
    + exfalso. subst x. apply N1. apply (Permutation_in a (Permutation_sym (Permutation_cons_inv P))). rewrite E. apply in_or_app. right. left. reflexivity.
    + exists k1, k2, k3. exact E1.
Qed.
Lemma filter_before {A} (f : A -> bool) l a b : comes_before l a b -> f a = true -> f b = true -> comes_before (filter f l) a b.
Proof.
  intros (l1 & l2 & l3 & ->) Ha Hb. exists (filter f l1), (filter f l2), (filter f l3).
  rewrite filter_app. simpl. rewrite Ha, filter_app. simpl. rewrite Hb. reflexivity.
Qed.
(** Works one after the other. *)
Lemma sequence_bounds : forall (l : list object) d,
  (forall o, In o l -> ob_start o <= ob_finish o) ->
  (forall l1 x y l2, l = l1 ++ x :: y :: l2 -> ob_finish x <= ob_start y) ->
  forall o, In o l -> ob_start (hd d l) <= ob_start o /\ ob_finish o <= ob_finish (last l d).
Proof.
  induction l as [|x l IH]; intros d Hp Hc o Ho; [destruct Ho|].
  destruct l as [|y l].
  - destruct Ho as [<-|[]]. simpl. lia.
  - assert (I := fun o Ho => IH d (fun o Ho => Hp o (or_intror Ho)) (fun l1 a b l2 E => Hc (x :: l1) a b l2 (f_equal (cons x) E)) o Ho).
    assert (F := Hc [] x y l eq_refl). assert (Px := Hp x (or_introl eq_refl)). assert (Py := Hp y (or_intror (or_introl eq_refl))).
    change (last (x :: y :: l) d) with (last (y :: l) d). change (hd d (x :: y :: l)) with x. change (hd d (y :: l)) with y in I.
    destruct Ho as [<-|Ho].
    + destruct (I y (or_introl eq_refl)). lia.
    + destruct (I o Ho). lia.
Qed.
Lemma sort_equal {A} (key : A -> Z) k (l : list A) : (forall x, In x l -> key x = k) -> sort_by key l = l.
Proof.
  intros H. assert (G : forall m, (forall x, In x m -> key x = k) -> filter (fun y => key y =? k) m = m).
  { induction m as [|x m IH]; intros Hm; [reflexivity|]. simpl. rewrite (Hm x (or_introl eq_refl)), Z.eqb_refl, IH; [reflexivity|]. intros y Hy. apply Hm. right. exact Hy. }
  rewrite <- (G (sort_by key l)), sort_stable, G; [reflexivity|exact H|].
  intros x Hx. apply H. apply (Permutation_in x (sort_perm key l)), Hx.
Qed.

Lemma map_fst_filter {A B} (f : A -> bool) (l : list (A * B)) : map fst (filter (fun x => f (fst x)) l) = filter f (map fst l).
Proof. induction l as [|x l IH]; [reflexivity|]. simpl. destruct (f (fst x)); simpl; rewrite IH; reflexivity. Qed.
Lemma filter_perm {A} (f : A -> bool) l l' : Permutation l l' -> Permutation (filter f l) (filter f l').
Proof.
  induction 1 as [|x l l' P IH|x y l|l l' l'' P1 IH1 P2 IH2]; simpl; auto.
  - destruct (f x); auto.
  - destruct (f x), (f y); try apply Permutation_refl. apply perm_swap.
  - eapply Permutation_trans; eassumption.
Qed.
Lemma filter_nodup {A} (f : A -> bool) l : NoDup l -> NoDup (filter f l).
Proof.
  induction 1 as [|x l N1 N2 IH]; simpl; [constructor|]. destruct (f x); [|exact IH]. constructor; [|exact IH].
  intros H. apply filter_In in H as [H _]. contradiction.
Qed.

Section United.
  Variables (g : rgraph) (use_lag : bool) (name : nat -> str) (granular : nat -> str) (plan : list (nid * object)).
  Variables (stages : nat -> list stage) (edges : list nedge).
  Let nodes := List.concat (map stages (rg_nodes g)).
  Hypothesis Hnodup : NoDup (rg_nodes g).
  Hypothesis Hids : forall w, exists k, map st_id (stages w) = map (fun i => (w, Some i)) (seq 0 k) ++ [(w, None)].
  Hypothesis Hnd : NoDup (map st_id nodes).
  Hypothesis Hlinks : forall w ne, In w (rg_nodes g) -> stage_link (stages w) ne -> In ne edges.
  Hypothesis Hshare : forall w, total_share (stages w) == 1.
  Hypothesis Hclean : forall w, In w (rg_nodes g) -> clean (name w).
  Hypothesis Hinj : forall v w, In v (rg_nodes g) -> In w (rg_nodes g) -> name v = name w -> v = w.
  Hypothesis HP : Permutation (map fst plan) (map st_id nodes).
  Hypothesis Hid : forall i o, In (i, o) plan -> ob_id o = id_string name i.
  Hypothesis Hgr : forall i o, In (i, o) plan -> ob_granular o = granular (fst i).
  Hypothesis Hnum : forall w, In w (rg_nodes g) -> get_stage_num (granular w) <> None.
  Hypothesis Hvol : forall s o, In s nodes -> In (st_id s, o) plan -> (ob_volume o == rg_volume g (fst (st_id s)) * st_share s)%Q.
  Hypothesis Hpos : forall i o, In (i, o) plan -> ob_start o <= ob_finish o.
  Hypothesis Hedge : forall ne a b, In ne edges -> In (ne_from ne, a) plan -> In (ne_to ne, b) plan ->
    (inject_Z (ob_finish a) + ne_lag ne <= inject_Z (ob_start b))%Q.
  Hypothesis Horder : forall ne, In ne edges -> comes_before (map fst plan) (ne_from ne) (ne_to ne).

  Lemma st_fst w s : In s (stages w) -> fst (st_id s) = w.
  Proof.
    intros H. destruct (Hids w) as [k E]. apply (in_map st_id) in H. rewrite E, in_app_iff in H. destruct H as [H|[<-|[]]]; [|reflexivity].
    apply in_map_iff in H as (i & <- & _). reflexivity.
  Qed.
  Lemma nodes_fst i : In i (map st_id nodes) -> In (fst i) (rg_nodes g).
  Proof.
    intros H. apply in_map_iff in H as (s & <- & H). unfold nodes in H. apply in_concat in H as (l & Hl & Hs).
    apply in_map_iff in Hl as (w & <- & Hw). rewrite (st_fst w s Hs). exact Hw.
  Qed.
  Lemma plan_node i o : In (i, o) plan -> In (fst i) (rg_nodes g).
  Proof. intros H. apply nodes_fst. apply (Permutation_in _ HP). apply (in_map fst) in H. exact H. Qed.
  Let of_work (w : nat) (i : nid) : bool := Nat.eqb (fst i) w.
  Lemma nodes_filter w : In w (rg_nodes g) -> filter (of_work w) (map st_id nodes) = map st_id (stages w).
  Proof.
    unfold nodes. clear Hnd HP Hvol Hlinks Hclean Hinj Hnum. intros Hw. revert Hnodup Hw. induction (rg_nodes g) as [|v l IH]; intros N Hw; [destruct Hw|].
    inversion N as [|? ? N1 N2]; subst. cbn [map List.concat]. rewrite map_app, filter_app.
    assert (All : forall u, filter (of_work u) (map st_id (stages u)) = map st_id (stages u)).
    { intros u. assert (G : forall s, In s (stages u) -> of_work u (st_id s) = true) by (intros s Hs; unfold of_work; rewrite (st_fst u s Hs); apply Nat.eqb_refl).
      induction (stages u) as [|s ss IHs]; [reflexivity|]. simpl. rewrite (G s (or_introl eq_refl)), IHs; [reflexivity|]. intros s' Hs'. apply G. right. exact Hs'. }
    assert (Not : forall u, u <> w -> filter (of_work w) (map st_id (stages u)) = []).
    { intros u Hu. assert (G : forall s, In s (stages u) -> of_work w (st_id s) = false) by (intros s Hs; unfold of_work; rewrite (st_fst u s Hs); apply Nat.eqb_neq; exact Hu).
      induction (stages u) as [|s ss IHs]; [reflexivity|]. simpl. rewrite (G s (or_introl eq_refl)), IHs; [reflexivity|]. intros s' Hs'. apply G. right. exact Hs'. }
    destruct (Nat.eq_dec v w) as [->|Ne].
    - rewrite All. replace (filter (of_work w) (map st_id (List.concat (map stages l)))) with (@nil nid); [apply app_nil_r|].
      symmetry. clear IH N2 N Hw. induction l as [|u l IH]; [reflexivity|]. cbn [map List.concat]. rewrite map_app, filter_app, Not, IH; [reflexivity| |].
      + intros Hl. apply N1. right. exact Hl.
      + intros ->. apply N1. left. reflexivity.
    - rewrite Not by exact Ne. apply IH; [exact N2|]. destruct Hw as [->|Hw]; [contradiction|exact Hw].
  Qed.
  Definition parts (w : nat) : list (nid * object) := filter (fun x => of_work w (fst x)) plan.
  Lemma parts_ids w : In w (rg_nodes g) -> map fst (parts w) = map st_id (stages w).
  Proof.
    intros Hw. unfold parts. rewrite map_fst_filter. apply chain_order.
    - apply filter_nodup. eapply Permutation_NoDup; [apply Permutation_sym, HP|exact Hnd].
    - rewrite <- (nodes_filter w Hw). apply filter_perm. exact HP.
    - intros l1 x y l2 E.
      assert (Hl : stage_link (stages w) (NE x y 0 IFS)).
      { clear - E. revert l1 E. induction (stages w) as [|s ss IH]; intros l1 E; [destruct l1; discriminate|]. destruct l1 as [|z l1].
        - cbn [map app] in E. injection E as <- E. destruct ss as [|s' ss]; [discriminate|]. injection E as <- _. exists [], s, s', ss. auto.
        - cbn [map app] in E. injection E as <- E. destruct (IH l1 E) as (m1 & a & b & m2 & E1 & E2). exists (s :: m1), a, b, m2. rewrite E1. auto. }
      assert (Hf : forall z, In z (map st_id (stages w)) -> of_work w z = true).
      { intros z Hz. apply in_map_iff in Hz as (s & <- & Hs). unfold of_work. rewrite (st_fst w s Hs). apply Nat.eqb_refl. }
      apply filter_before; [apply (Horder _ (Hlinks w _ Hw Hl))| |]; apply Hf; rewrite E; apply in_or_app; right; [left|right; left]; reflexivity.
  Qed.
  Lemma parts_linked w l1 x y l2 : In w (rg_nodes g) -> parts w = l1 ++ x :: y :: l2 -> ob_finish (snd x) <= ob_start (snd y).
  Proof.
    intros Hw E. assert (I := parts_ids w Hw). rewrite E, map_app in I. cbn [map] in I.
    assert (Hl : exists m1 a b m2, stages w = m1 ++ a :: b :: m2 /\ st_id a = fst x /\ st_id b = fst y).
    { clear - I. revert I. generalize (map fst l1) as k1. induction (stages w) as [|s ss IH]; intros [|z k1] I; try discriminate.
      - cbn [map app] in I. injection I as I1 I. destruct ss as [|s' ss]; [discriminate|]. injection I as I2 _. exists [], s, s', ss. auto.
      - cbn [map app] in I. injection I as _ I. destruct (IH k1 I) as (m1 & a & b & m2 & -> & Ea & Eb). exists (s :: m1), a, b, m2. auto. }
    destruct Hl as (m1 & a & b & m2 & Es & Ea & Eb).
    assert (Hx : In x (parts w)) by (rewrite E; apply in_or_app; right; left; reflexivity).
    assert (Hy : In y (parts w)) by (rewrite E; apply in_or_app; right; right; left; reflexivity).
    apply filter_In in Hx as [Hx _]. apply filter_In in Hy as [Hy _].
    assert (F := Hedge (NE (st_id a) (st_id b) 0 IFS) (snd x) (snd y)). cbn [ne_from ne_to ne_lag] in F.
    rewrite Ea, Eb, <- !surjective_pairing in F. rewrite Zle_Qle.
    assert (Hn : In (NE (fst x) (fst y) 0 IFS) edges) by (apply (Hlinks w _ Hw); exists m1, a, b, m2; rewrite Ea, Eb; auto).
    specialize (F Hn Hx Hy). lra.
  Qed.
  Lemma parts_nonempty w : In w (rg_nodes g) -> parts w <> [].
  Proof.
    intros Hw E. assert (I := parts_ids w Hw). rewrite E in I. destruct (Hids w) as [k Ek]. rewrite Ek in I. destruct (map _ (seq 0 k)); discriminate.
  Qed.
  Let d0 : object := Ob [] [] [] 0 0 0 0 [].
  Definition first_object (w : nat) : object := hd d0 (map snd (parts w)).
  Definition last_object (w : nat) : object := last (map snd (parts w)) d0.
  Lemma parts_bounds w i o : In w (rg_nodes g) -> In (i, o) plan -> fst i = w ->
    ob_start (first_object w) <= ob_start o /\ ob_finish o <= ob_finish (last_object w).
  Proof.
    intros Hw Ho <-. apply sequence_bounds.
    - intros o' Ho'. apply in_map_iff in Ho' as ([i' o''] & <- & Ho'). apply filter_In in Ho' as [Ho' _]. apply (Hpos i' o'' Ho').
    - intros l1 x y l2 E. apply map_eq_app in E as (p1 & p2 & Ep & E1 & E2).
      destruct p2 as [|x' [|y' p2]]; try discriminate. injection E2 as <- <- _. apply (parts_linked _ _ _ _ _ Hw Ep).
    - apply in_map_iff. exists (i, o). split; [reflexivity|]. apply filter_In. split; [exact Ho|apply Nat.eqb_refl].
  Qed.
  Definition rows : list row := map (fun x => row_of (snd x)) plan.
  Lemma row_task i o : In (i, o) plan -> clean (name (fst i)) /\ row_of_task (name (fst i)) (row_of o) /\ first_part (rw_id (row_of o)) = name (fst i).
  Proof.
    intros H. assert (C := Hclean _ (plan_node i o H)).
    assert (T : row_of_task (name (fst i)) (row_of o)).
    { unfold row_of_task. cbn [row_of rw_id]. rewrite (Hid i o H). unfold id_string. destruct (snd i) as [k|]; eauto. }
    split; [exact C|]. split; [exact T|]. apply first_part_task; assumption.
  Qed.
  Lemma rows_filter w : In w (rg_nodes g) -> filter (fun r => str_eqb (first_part (rw_id r)) (name w)) rows = map (fun x => row_of (snd x)) (parts w).
  Proof.
    intros Hw. unfold rows, parts. assert (G : forall x, In x plan -> In x plan) by auto. revert G. generalize plan at 1 3 4 as l.
    induction l as [|[i o] l IH]; intros G; [reflexivity|]. cbn [map filter fst snd].
    destruct (row_task i o (G _ (or_introl eq_refl))) as (_ & _ & E). rewrite E, IH by (intros x Hx; apply G; right; exact Hx).
    unfold of_work. destruct (Nat.eqb_spec (fst i) w) as [->|Ne].
    - replace (str_eqb (name w) (name w)) with true by (symmetry; apply str_eqb_spec; reflexivity). reflexivity.
    - destruct (str_eqb (name (fst i)) (name w)) eqn:Q; [|reflexivity]. apply str_eqb_spec in Q. exfalso. apply Ne. apply Hinj; [|exact Hw|exact Q].
      apply (plan_node i o). apply G. left. reflexivity.
  Qed.
  Lemma parts_volume w : In w (rg_nodes g) -> (qsum (map rw_volume (map (fun x => row_of (snd x)) (parts w))) == rg_volume g w)%Q.
  Proof.
    intros Hw. assert (G : forall ps ss, map fst ps = map st_id ss -> (forall x, In x ps -> In x plan) -> (forall s, In s ss -> In s (stages w)) ->
      (qsum (map rw_volume (map (fun x => row_of (snd x)) ps)) == rg_volume g w * total_share ss)%Q).
    { induction ps as [|[i o] ps IH]; intros [|s ss] E Hp Hs; try discriminate; [cbn; ring|].
      cbn [map] in E. injection E as E1 E. cbn [map qsum fold_right total_share snd]. fold (qsum (map rw_volume (map (fun x => row_of (snd x)) ps))). fold (total_share ss).
      rewrite (IH ss E) by (intros; auto using in_cons). cbn [row_of rw_volume]. cbn [fst] in E1. subst i.
      assert (Ss := Hs s (or_introl eq_refl)).
      rewrite (Hvol s o); [rewrite (st_fst w s Ss); ring| |apply Hp; left; reflexivity].
      unfold nodes. apply in_concat. exists (stages w). split; [apply in_map, Hw|exact Ss]. }
    rewrite (G (parts w) (stages w) (parts_ids w Hw)); [rewrite (Hshare w); ring| |auto].
    intros x Hx. apply filter_In in Hx. apply Hx.
  Qed.
  Lemma parts_last w : In w (rg_nodes g) -> exists l o, parts w = l ++ [((w, None), o)].
  Proof.
    intros Hw. assert (I := parts_ids w Hw). destruct (Hids w) as [k Ek]. rewrite Ek in I. apply map_eq_app in I as (p1 & p2 & E & _ & E2).
    destruct p2 as [|[i o] [|? ?]]; try discriminate. cbn [map fst] in E2. injection E2 as ->. eauto.
  Qed.
  Lemma united_part w r : In w (rg_nodes g) -> merge_split_stages (fun key => sort_by key) (map (fun x => row_of (snd x)) (parts w)) = Some r ->
    let u := row_of (united r) in
    rw_id u = name w /\ (rw_volume u == rg_volume g w)%Q /\ rw_start u = ob_start (first_object w) /\ rw_finish u = ob_finish (last_object w) /\
    rw_start r = ob_start (first_object w).
  Proof.
    intros Hw Hm u.
    destruct (merge_stages (fun key => sort_by key) (fun key l => conj (sort_perm key l) (sort_ascending key l)) (map (fun x => row_of (snd x)) (parts w))) as (r' & Hm' & M).
    { intros E. apply map_eq_nil in E. exact (parts_nonempty w Hw E). }
    { intros _ x Hx. apply in_map_iff in Hx as ([i o] & <- & Hx). apply filter_In in Hx as [Hx _]. unfold parses. cbn [row_of rw_granular snd].
      rewrite (Hgr i o Hx). assert (N := Hnum (fst i) (plan_node i o Hx)). destruct (get_stage_num (granular (fst i))); [reflexivity|contradiction]. }
    rewrite Hm in Hm'. injection Hm' as <-.
    assert (Hle : forall i o, In (i, o) (parts w) -> ob_start o <= ob_finish o).
    { intros i o H. apply filter_In in H as [H _]. apply (Hpos i o H). }
    destruct (parts_last w Hw) as (l & o & Ep).
    assert (Ho : In ((w, None), o) (parts w)) by (rewrite Ep; apply in_or_app; right; left; reflexivity).
    assert (Ho' : In ((w, None), o) plan) by (apply filter_In in Ho; apply Ho).
    assert (El : last_object w = o) by (unfold last_object; rewrite Ep, map_app; apply last_last).
    assert (Fs : rw_start r = ob_start (first_object w)).
    { unfold first_object. destruct (parts w) as [|[i1 o1] ps] eqn:E1; [destruct l; discriminate|]. cbn [map hd snd].
      destruct (mg_start _ _ M (row_of o1) (map (fun x => row_of (snd x)) ps) eq_refl) as [-> _]. cbn [row_of rw_start].
      assert (X := Hle i1 o1 (or_introl eq_refl)). lia. }
    assert (Ff : rw_finish r = ob_finish (last_object w)).
    { rewrite El. rewrite (mg_finish _ _ M (row_of o) (map (fun x => row_of (snd x)) l)); [|rewrite Ep, map_app; reflexivity].
      cbn [row_of rw_finish]. assert (X := Hle _ _ Ho). lia. }
    assert (Fid : ob_id (rw_object r) = name w).
    { assert (Eo : rw_object r = o).
      { destruct (map (fun x => row_of (snd x)) (parts w)) as [|r1 [|r2 rs]] eqn:E1; [rewrite Ep, map_app in E1; destruct (map (fun x => row_of (snd x)) l); discriminate| |].
        - rewrite (mg_single _ _ M r1 eq_refl). rewrite Ep, map_app in E1. destruct l as [|x l]; [|destruct l; discriminate]. injection E1 as <-. reflexivity.
        - unfold merge_split_stages in Hm. destruct (forallb parses (r1 :: r2 :: rs)) in Hm; [|discriminate]. injection Hm as <-. cbn [rw_object].
          assert (Hk : exists k, forall x, In x (r1 :: r2 :: rs) -> stage_num x = k).
          { exists (match get_stage_num (granular w) with Some n => n | None => 0 end). rewrite <- E1. intros x Hx. apply in_map_iff in Hx as ([i o2] & <- & Hx).
            apply filter_In in Hx as [Hx Hf]. unfold of_work in Hf. apply Nat.eqb_eq in Hf. cbn [fst] in Hf. unfold stage_num. cbn [row_of rw_granular snd]. rewrite (Hgr i o2 Hx), Hf. reflexivity. }
          destruct Hk as [k Hk]. change (insert stage_num r1 (insert stage_num r2 (sort_by stage_num rs))) with (sort_by stage_num (r1 :: r2 :: rs)). rewrite (sort_equal stage_num k _ Hk). rewrite <- E1, Ep, map_app. cbn [map]. rewrite last_last. reflexivity. }
      rewrite Eo, (Hid _ _ Ho'). reflexivity. }
    assert (Hb := parts_bounds w (w, None) o Hw Ho' eq_refl). assert (Hoo := Hle _ _ Ho).
    unfold u. cbn [row_of united rw_id rw_volume rw_start rw_finish ob_id ob_volume ob_start ob_finish].
    split; [exact Fid|]. split; [rewrite (mg_volume _ _ M); apply parts_volume, Hw|]. rewrite Fs, Ff. rewrite El in *. repeat split; lia.
  Qed.

  Lemma in_part w s : In w (rg_nodes g) -> In s (stages w) -> exists o, In (st_id s, o) plan.
  Proof.
    intros Hw Hs. apply (in_map st_id) in Hs. rewrite <- (parts_ids w Hw) in Hs. apply in_map_iff in Hs as ([i o] & E & Hx). cbn [fst] in E. subst i.
    apply filter_In in Hx as [Hx _]. eauto.
  Qed.
  (** The bounds in terms of stages. *)
  Lemma stage_bounds w s o : In w (rg_nodes g) -> In s (stages w) -> In (st_id s, o) plan ->
    ob_start (first_object w) <= ob_start o /\ ob_start o <= ob_finish o /\ ob_finish o <= ob_finish (last_object w).
  Proof. intros Hw Hs Ho. destruct (parts_bounds w (st_id s) o Hw Ho (st_fst w s Hs)). assert (X := Hpos _ _ Ho). lia. Qed.
  Lemma plan_nodup i o o' : In (i, o) plan -> In (i, o') plan -> o = o'.
  Proof.
    assert (N : NoDup (map fst plan)) by (eapply Permutation_NoDup; [apply Permutation_sym, HP|exact Hnd]).
    clear - N. induction plan as [|[j p] l IH]; intros H1 H2; [destruct H1|]. inversion N as [|? ? N1 N2]; subst.
    destruct H1 as [E1|H1], H2 as [E2|H2].
    - congruence.
    - exfalso. injection E1 as -> ->. apply N1. apply (in_map fst) in H2. exact H2.
    - exfalso. injection E2 as -> ->. apply N1. apply (in_map fst) in H1. exact H1.
    - apply IH; assumption.
  Qed.
  Lemma ends_object w i : In w (rg_nodes g) -> ends_with (stages w) i -> In (i, last_object w) plan.
  Proof.
    intros Hw (s & l & E & <-). destruct (parts_last w Hw) as (l' & o & Ep).
    assert (I := parts_ids w Hw). rewrite Ep, E, !map_app in I. cbn [map fst] in I. apply app_inj_tail in I as [_ I].
    unfold last_object. rewrite Ep, map_app. cbn [map snd]. rewrite last_last, <- I.
    assert (X : In ((w, None), o) (parts w)) by (rewrite Ep; apply in_or_app; right; left; reflexivity). apply filter_In in X. apply X.
  Qed.
  Lemma starts_object w i : In w (rg_nodes g) -> starts_with (stages w) i -> In (i, first_object w) plan.
  Proof.
    intros Hw (s & l & E & <-). assert (I := parts_ids w Hw). rewrite E in I. unfold first_object.
    destruct (parts w) as [|[j o] ps] eqn:Ep; [discriminate|]. cbn [map fst] in I. injection I as I _. subst j. cbn [map hd snd].
    assert (X : In (st_id s, o) (parts w)) by (rewrite Ep; left; reflexivity). apply filter_In in X. apply X.
  Qed.
  Lemma edge_times ne a b : In ne edges -> In (ne_from ne, a) plan -> In (ne_to ne, b) plan -> (0 <= ne_lag ne)%Q -> ob_finish a <= ob_start b.
  Proof. intros H1 H2 H3 H4. assert (X := Hedge ne a b H1 H2 H3). rewrite Zle_Qle. lra. Qed.
End United.

(** C93. A graph is restructured and scheduled: [plan] has the times of all stages, keeps every
    edge of the restructured graph and lists the stages in an order that respects them (C39, C11).
    The stages of a work share their granular name (see [stage_names]); volumes are the shares of
    the works' volumes. Uniting the stages, with a stable sort, gives one row for every work of
    the original graph, with the id and the whole volume of the work, from the start of its
    earliest stage to the finish of its latest one; and the rows keep all edges of the original
    graph. *)
Theorem united_schedule_keeps_graph g use_lag nodes edges name granular plan listing table_sort :
  restructurable g use_lag -> restructure g use_lag = Some (nodes, edges) ->
  (forall w, In w (rg_nodes g) -> clean (name w)) ->
  (forall v w, In v (rg_nodes g) -> In w (rg_nodes g) -> name v = name w -> v = w) ->
  (forall l, Permutation (listing l) l) ->
  (forall l, Permutation (table_sort l) l /\ StronglySorted (fun a b => rw_start a <= rw_start b) (table_sort l)) ->
  Permutation (map fst plan) (map st_id nodes) ->
  (forall i o, In (i, o) plan -> ob_id o = id_string name i /\ ob_granular o = granular (fst i) /\ ob_start o <= ob_finish o) ->
  (forall w, In w (rg_nodes g) -> get_stage_num (granular w) <> None) ->
  (forall s o, In s nodes -> In (st_id s, o) plan -> (ob_volume o == rg_volume g (fst (st_id s)) * st_share s)%Q) ->
  (forall ne a b, In ne edges -> In (ne_from ne, a) plan -> In (ne_to ne, b) plan ->
     (inject_Z (ob_finish a) + ne_lag ne <= inject_Z (ob_start b))%Q) ->
  (forall ne, In ne edges -> comes_before (map fst plan) (ne_from ne) (ne_to ne)) ->
  exists out, unite_stages (fun key => sort_by key) listing table_sort (map (fun x => row_of (snd x)) plan) = Some out /\
    Permutation (map rw_id out) (map name (rg_nodes g)) /\
    StronglySorted (fun a b => rw_start a <= rw_start b) out /\
    (forall w r, In w (rg_nodes g) -> In r out -> rw_id r = name w ->
       (rw_volume r == rg_volume g w)%Q /\ rw_duration r = rw_finish r - rw_start r /\
       (forall i o, In (i, o) plan -> fst i = w -> rw_start r <= ob_start o /\ ob_finish o <= rw_finish r) /\
       (exists i o, In (i, o) plan /\ fst i = w /\ rw_start r = ob_start o) /\
       (exists i o, In (i, o) plan /\ fst i = w /\ rw_finish r = ob_finish o)) /\
    (forall e a b, In e (rg_edges g) -> In a out -> In b out -> rw_id a = name (re_from e) -> rw_id b = name (re_to e) -> kept use_lag e a b).
Proof.
  intros H R Hclean Hinj Hlist Htable HP Ho Hnum Hvol Hedge Horder.
  destruct (restructure_correct g use_lag H) as (stages & edges' & R' & Ids & _ & Sh & Nd & _ & _ & Links & Rep).
  rewrite R in R'. injection R' as -> <-.
  assert (Hids : forall w, exists k, map st_id (stages w) = map (fun i => (w, Some i)) (seq 0 k) ++ [(w, None)]) by (intros w; destruct (Ids w) as (k & E & _); eauto).
  assert (Hnodup := rs_nodup _ _ H).
  assert (Hid : forall i o, In (i, o) plan -> ob_id o = id_string name i) by (intros i o X; apply (Ho i o X)).
  assert (Hgr : forall i o, In (i, o) plan -> ob_granular o = granular (fst i)) by (intros i o X; apply (Ho i o X)).
  assert (Hpos : forall i o, In (i, o) plan -> ob_start o <= ob_finish o) by (intros i o X; apply (Ho i o X)).
  assert (Hshare : forall w, total_share (stages w) == 1) by (intros w; apply (Sh w)).
  set (rows := map (fun x => row_of (snd x)) plan).
  set (work := fun r => first_part (rw_id r)).
  assert (Ht : forall i o, In (i, o) plan -> clean (name (fst i)) /\ row_of_task (name (fst i)) (row_of o) /\ first_part (rw_id (row_of o)) = name (fst i))
    by (intros i o X; eapply row_task; eauto).
  destruct (fix_split_spec (fun key => sort_by key) (fun key l => conj (sort_perm key l) (sort_ascending key l)) listing Hlist table_sort Htable rows work) as (out & ids & E & N & I & S & F).
  { intros r Hr. apply in_map_iff in Hr as ([i o] & <- & Hr). unfold work. cbn [snd]. destruct (Ht i o Hr) as (T1 & T2 & ->). auto. }
  { intros r Hr _. apply in_map_iff in Hr as ([i o] & <- & Hr). unfold parses. cbn [snd row_of rw_granular]. rewrite (Hgr i o Hr).
    assert (X : In (fst i) (rg_nodes g)) by (eapply plan_node; eauto). specialize (Hnum _ X). destruct (get_stage_num (granular (fst i))); [reflexivity|contradiction]. }
  exists (map (fun r => row_of (united r)) out). unfold unite_stages. fold rows. rewrite E. split; [reflexivity|].
  assert (Hi : forall i, In i ids <-> In i (map name (rg_nodes g))).
  { intros i. rewrite I. split.
    - intros (r & Hr & <-). apply in_map_iff in Hr as ([j o] & <- & Hr). unfold work. cbn [snd]. destruct (Ht j o Hr) as (_ & _ & ->). apply in_map. eapply plan_node; eauto.
    - intros X. apply in_map_iff in X as (w & <- & Hw).
      assert (Hp : parts plan w <> []) by (eapply parts_nonempty; eauto).
      destruct (parts plan w) as [|[j o] ps] eqn:Ep; [contradiction|].
      assert (Hj : In (j, o) (parts plan w)) by (rewrite Ep; left; reflexivity). apply filter_In in Hj as [Hj Hf]. apply Nat.eqb_eq in Hf. cbn [fst] in Hf.
      exists (row_of o). split; [apply in_map_iff; exists (j, o); auto|]. unfold work. destruct (Ht j o Hj) as (_ & _ & ->). congruence. }
  (* every row, seen as the row of a work *)
  assert (U : forall i r, In (i, r) (combine ids out) -> exists w, In w (rg_nodes g) /\ i = name w /\
     rw_id (row_of (united r)) = name w /\ (rw_volume (row_of (united r)) == rg_volume g w)%Q /\
     rw_start (row_of (united r)) = ob_start (first_object plan w) /\ rw_finish (row_of (united r)) = ob_finish (last_object plan w) /\ rw_start r = rw_start (row_of (united r))).
  { intros i r Hc. assert (Hm : merge_split_stages (fun key => sort_by key) (filter (fun x => str_eqb (work x) i) rows) = Some r).
    { clear - F Hc. induction F as [|j q ids out [M _] F IH]; [destruct Hc|]. destruct Hc as [[= <- <-]|Hc]; [exact M|apply IH, Hc]. }
    assert (X : In i ids) by (apply in_combine_l in Hc; exact Hc). apply Hi in X. apply in_map_iff in X as (w & <- & Hw). exists w. split; [exact Hw|]. split; [reflexivity|].
    assert (Ef : filter (fun x => str_eqb (work x) (name w)) rows = map (fun x => row_of (snd x)) (parts plan w)) by (eapply rows_filter; eauto).
    rewrite Ef in Hm.
    assert (Up : let u := row_of (united r) in rw_id u = name w /\ (rw_volume u == rg_volume g w)%Q /\ rw_start u = ob_start (first_object plan w) /\ rw_finish u = ob_finish (last_object plan w) /\
       rw_start r = ob_start (first_object plan w)) by (eapply united_part; eauto).
    destruct Up as (U1 & U2 & U3 & U4 & U5). repeat split; auto. congruence. }
  assert (Len : List.length ids = List.length out) by (clear - F; induction F; simpl; congruence).
  assert (Uo : forall r, In r out -> exists i, In (i, r) (combine ids out)).
  { clear - Len. revert ids Len. induction out as [|x out IH]; intros [|j ids] Len r Hr; try discriminate; [destruct Hr|]. simpl in Len.
    destruct Hr as [<-|Hr]; [exists j; left; reflexivity|]. destruct (IH ids ltac:(lia) r Hr) as [i X]. exists i. right. exact X. }
  assert (W : forall u w, In w (rg_nodes g) -> In u (map (fun r => row_of (united r)) out) -> rw_id u = name w ->
     (rw_volume u == rg_volume g w)%Q /\ rw_start u = ob_start (first_object plan w) /\ rw_finish u = ob_finish (last_object plan w)).
  { intros u w Hw Hu Eu. apply in_map_iff in Hu as (r & <- & Hr). destruct (Uo r Hr) as [i X].
    destruct (U i r X) as (w' & Hw' & _ & U1 & U2 & U3 & U4 & _). assert (w' = w) by (apply Hinj; [exact Hw'|exact Hw|congruence]). subst w'. auto. }
  split; [|split; [|split]].
  - assert (Em : map rw_id (map (fun r => row_of (united r)) out) = ids).
    { rewrite map_map. clear - U Len. revert ids Len U. induction out as [|x out IH]; intros [|j ids] Len U; try discriminate; [reflexivity|].
      cbn [map]. f_equal; [|apply IH; [simpl in Len; lia|intros i r X; apply U; right; exact X]].
      destruct (U j x (or_introl eq_refl)) as (w & _ & -> & U1 & _). exact U1. }
    rewrite Em. apply NoDup_Permutation; [exact N| |exact Hi].
    clear - Hnodup Hinj. induction (rg_nodes g) as [|w l IH]; [constructor|]. inversion Hnodup as [|? ? N1 N2]; subst. cbn [map]. constructor.
    + intros X. apply in_map_iff in X as (v & Ev & Hv). assert (v = w) by (apply Hinj; [right; exact Hv|left; reflexivity|exact Ev]). subst v. contradiction.
    + apply IH; [|exact N2]. intros v u Hv Hu. apply Hinj; right; assumption.
  - assert (Es : forall r, In r out -> rw_start (row_of (united r)) = rw_start r).
    { intros r Hr. destruct (Uo r Hr) as [i X]. destruct (U i r X) as (w & _ & _ & _ & _ & _ & _ & U5). auto. }
    clear - S Es. induction S as [|r out S IH Hf]; [constructor|]. cbn [map]. constructor; [apply IH; intros q Hq; apply Es; right; exact Hq|].
    rewrite Forall_forall in *. intros u Hu. apply in_map_iff in Hu as (q & <- & Hq). rewrite !Es by (simpl; auto). apply Hf, Hq.
  - intros w u Hw Hu Eu. destruct (W u w Hw Hu Eu) as (W1 & W2 & W3). split; [exact W1|]. rewrite W2, W3. split; [|split; [|split]].
    + apply in_map_iff in Hu as (r & <- & _). cbn [row_of rw_duration] in *. cbn [row_of rw_start rw_finish] in W2, W3. rewrite W2, W3. reflexivity.
    + intros i o Hio Ew. eapply parts_bounds; eauto.
    + destruct (Hids w) as [k Ek]. destruct (stages w) as [|s l] eqn:Es; [destruct (map _ (seq 0 k)); discriminate|].
      exists (st_id s), (first_object plan w). split; [eapply starts_object; eauto; exists s, l; auto|]. split; [|reflexivity].
      eapply st_fst; [exact Hids|]. rewrite Es. left. reflexivity.
    + destruct (Hids w) as [k Ek]. exists (w, None), (last_object plan w). split; [eapply ends_object; eauto|auto].
      destruct (stages w) as [|s l _] eqn:Es using rev_ind; [destruct (map _ (seq 0 k)); discriminate|].
      exists s, l. split; [reflexivity|]. rewrite map_app in Ek. apply app_inj_tail in Ek as [_ Ek]. exact Ek.
  - intros e a b He Ha Hb Ea Eb.
    assert (Hin : In (re_from e) (rg_nodes g) /\ In (re_to e) (rg_nodes g)) by (apply comes_before_in; apply (rs_order _ _ H e He)).
    destruct Hin as [Hu Hv]. destruct (W a _ Hu Ha Ea) as (_ & A1 & A2). destruct (W b _ Hv Hb Eb) as (_ & B1 & B2).
    destruct (Rep e He) as [R1 R2].
    assert (End : forall w i, In w (rg_nodes g) -> ends_with (stages w) i -> In (i, last_object plan w) plan) by (intros w i X Y; eapply ends_object; eauto).
    assert (Start : forall w i, In w (rg_nodes g) -> starts_with (stages w) i -> In (i, first_object plan w) plan) by (intros w i X Y; eapply starts_object; eauto).
    assert (Any : forall w s, In w (rg_nodes g) -> In s (stages w) -> exists o, In (st_id s, o) plan /\
       ob_start (first_object plan w) <= ob_start o /\ ob_start o <= ob_finish o /\ ob_finish o <= ob_finish (last_object plan w)).
    { intros w s X Y. assert (Z0 : exists o, In (st_id s, o) plan) by (eapply in_part; eauto). destruct Z0 as [o Z0]. exists o. split; [exact Z0|]. eapply stage_bounds; eauto. }
    assert (Fst : forall w i, In w (rg_nodes g) -> starts_with (stages w) i -> ob_start (first_object plan w) <= ob_finish (first_object plan w)) by (intros w i X Y; apply (Hpos i), (Start w i X Y)).
    (* the start of the later work *)
    assert (Ps : forall ne, In ne edges -> start_part use_lag (rg_volume g) stages e ne ->
      match re_type e with
      | FS => ob_finish (last_object plan (re_from e)) + Qceiling (re_lag e) <= ob_start (first_object plan (re_to e))
      | IFS => ob_finish (last_object plan (re_from e)) <= ob_start (first_object plan (re_to e))
      | SS => ob_start (first_object plan (re_from e)) <= ob_start (first_object plan (re_to e))
      | FF => True
      | FFS => if use_lag then ob_start (first_object plan (re_from e)) <= ob_start (first_object plan (re_to e))
               else ob_finish (last_object plan (re_from e)) <= ob_start (first_object plan (re_to e))
      end).
    { intros ne Hne P. inversion P as [x f T X1 X2 EE|x f T X1 X2 EE|x f U0 T X1 X2 EE|x f U0 T X1 X2 EE|x f p U0 T Lp (l1 & s & l2 & Es & Ei & _) X2 EE]; subst ne.
      - rewrite T. assert (X := Hedge _ _ _ Hne (End _ _ Hu X1) (Start _ _ Hv X2)). cbn [ne_lag] in X. rewrite <- inject_Z_plus, <- Zle_Qle in X. exact X.
      - rewrite T. assert (X := Hedge _ _ _ Hne (End _ _ Hu X1) (Start _ _ Hv X2)). cbn [ne_lag] in X. rewrite Zle_Qle. lra.
      - rewrite T, U0. assert (X := Hedge _ _ _ Hne (End _ _ Hu X1) (Start _ _ Hv X2)). cbn [ne_lag] in X. rewrite Zle_Qle. lra.
      - rewrite T. assert (X := Hedge _ _ _ Hne (Start _ _ Hu X1) (Start _ _ Hv X2)). cbn [ne_lag] in X. assert (Y := Fst _ _ Hu X1).
        assert (ob_finish (first_object plan (re_from e)) <= ob_start (first_object plan (re_to e))) by (rewrite Zle_Qle; lra). lia.
      - assert (Y : In s (stages (re_from e))) by (rewrite Es; apply in_or_app; right; left; reflexivity).
        destruct (Any _ s Hu Y) as (o & O1 & O2 & O3 & _). rewrite Ei in O1. assert (X := Hedge _ _ _ Hne O1 (Start _ _ Hv X2)). cbn [ne_lag] in X.
        assert (ob_finish o <= ob_start (first_object plan (re_to e))) by (rewrite Zle_Qle; lra). destruct T as [T|T]; rewrite T; [lia|rewrite U0; lia]. }
    (* its finish *)
    assert (Pf : forall ne, In ne edges -> finish_part use_lag (rg_volume g) stages e ne ->
      ob_finish (last_object plan (re_from e)) <= ob_finish (last_object plan (re_to e))).
    { intros ne Hne P. inversion P as [x z U0 T X1 X2 EE|x z p U0 T Lp X1 (l1 & s & l2 & Es & Ei & _) EE]; subst ne.
      - assert (X := Hedge _ _ _ Hne (End _ _ Hu X1) (End _ _ Hv X2)). cbn [ne_lag] in X. assert (Y := Hpos _ _ (End _ _ Hv X2)).
        assert (ob_finish (last_object plan (re_from e)) <= ob_start (last_object plan (re_to e))) by (rewrite Zle_Qle; lra). lia.
      - assert (Y : In s (stages (re_to e))) by (rewrite Es; apply in_or_app; right; left; reflexivity).
        destruct (Any _ s Hv Y) as (o & O1 & _ & O3 & O4). rewrite Ei in O1. assert (X := Hedge _ _ _ Hne (End _ _ Hu X1) O1). cbn [ne_lag] in X.
        assert (ob_finish (last_object plan (re_from e)) <= ob_start o) by (rewrite Zle_Qle; lra). lia. }
    unfold kept. rewrite A1, A2, B1, B2. destruct (re_type e) eqn:T.
    + destruct (R1 ltac:(discriminate)) as (ne & N1 & N2). exact (Ps ne N1 N2).
    + destruct (R1 ltac:(discriminate)) as (ne & N1 & N2). destruct use_lag eqn:El; [|exact (Ps ne N1 N2)].
      split; [exact (Ps ne N1 N2)|]. destruct (R2 ltac:(auto)) as (ne' & M1 & M2). exact (Pf ne' M1 M2).
    + destruct (R1 ltac:(discriminate)) as (ne & N1 & N2). exact (Ps ne N1 N2).
    + destruct (R2 ltac:(auto)) as (ne & N1 & N2). exact (Pf ne N1 N2).
    + destruct (R1 ltac:(discriminate)) as (ne & N1 & N2). exact (Ps ne N1 N2).
Qed.
Print Assumptions united_schedule_keeps_graph.

(** The names that restructuring gives satisfy the hypothesis on stage numbers. *)
Theorem stage_names name k : clean name -> get_stage_num (granular_after name k) <> None /\ first_part (granular_after name k) = name.
Proof. intros H. rewrite (granular_num name k H). split; [discriminate|apply granular_first, H]. Qed.
Print Assumptions stage_names.

(** ** A concrete case *)
(** The graph of [restructure_example] with all types of edges. Its 10 stages are done one after
    the other, each in 5 days, with 5 days between them. *)
Definition mx_name (w : nat) : str := of_string "work" ++ digits w.
Definition mx_granular (w : nat) : str := granular_after (of_string "digging") w.
Definition mx_nodes : list stage := match restructure rx_graph true with Some (nodes, _) => nodes | None => [] end.
Definition mx_edges : list nedge := match restructure rx_graph true with Some (_, edges) => edges | None => [] end.
Definition mx_object (s : stage) (k : nat) : object :=
  Ob (id_string mx_name (st_id s)) (of_string "Digging") (mx_granular (fst (st_id s))) (rg_volume rx_graph (fst (st_id s)) * st_share s)
     7 (10 * Z.of_nat k) (10 * Z.of_nat k + 5) [(0%nat, 2)].
Definition mx_plan : list (nid * object) := map (fun x => (st_id (fst x), mx_object (fst x) (snd x))) (combine mx_nodes (seq 0 10)).
Definition mx_table : list row -> list row := sort_by rw_start.
Definition mx_view (r : option (list row)) := option_map (map (fun r => (string_of_list_ascii (rw_id r), string_of_list_ascii (rw_granular r), Qred (rw_volume r), rw_start r, rw_finish r))) r.
Example mx_united : mx_view (unite_stages (fun key => sort_by key) (fun l => l) mx_table (map (fun x => row_of (snd x)) mx_plan)) =
  Some [("work0"%string, "digging"%string, 0%Q, 0, 5); ("work1"%string, "digging"%string, 10%Q, 10, 35); ("work2"%string, "digging"%string, 8%Q, 40, 55);
        ("work3"%string, "digging"%string, 20%Q, 60, 85); ("work4"%string, "digging_stage_0_stage_1_stage_2_stage_3"%string, 0%Q, 90, 95)].
Proof. vm_compute. reflexivity. Qed.
Lemma digits_inj v w : digits v = digits w -> v = w.
Proof. intros E. assert (P := parse_digits v). rewrite E, parse_digits in P. injection P as P. lia. Qed.
Lemma plain_app a b : Forall is_digit a -> Forall is_digit b -> Forall is_digit (a ++ b).
Proof. intros A B. apply Forall_app. auto. Qed.
Lemma nid_eqb_spec a b : nid_eqb a b = true <-> a = b.
Proof.
  destruct a as [x [i|]], b as [y [j|]]; unfold nid_eqb; cbn [fst snd]; rewrite andb_true_iff, Nat.eqb_eq; try rewrite Nat.eqb_eq; split;
    try (intros [-> ->]; reflexivity); try (intros [= -> ->]; auto); try (intros [_ X]; discriminate); try discriminate; try (intros [-> _]; reflexivity); intros [= ->]; auto.
Qed.
Lemma some_pair A B (a c : A) (b d : B) : Some (a, b) = Some (c, d) -> a = c /\ b = d.
Proof. intros [= -> ->]. auto. Qed.
Example mx_hypotheses :
  restructurable rx_graph true /\ restructure rx_graph true = Some (mx_nodes, mx_edges) /\
  (forall w, In w (rg_nodes rx_graph) -> clean (mx_name w)) /\
  (forall v w, In v (rg_nodes rx_graph) -> In w (rg_nodes rx_graph) -> mx_name v = mx_name w -> v = w) /\
  (forall l, Permutation (mx_table l) l /\ StronglySorted (fun a b => rw_start a <= rw_start b) (mx_table l)) /\
  Permutation (map fst mx_plan) (map st_id mx_nodes) /\
  (forall i o, In (i, o) mx_plan -> ob_id o = id_string mx_name i /\ ob_granular o = mx_granular (fst i) /\ ob_start o <= ob_finish o) /\
  (forall w, In w (rg_nodes rx_graph) -> get_stage_num (mx_granular w) <> None) /\
  (forall s o, In s mx_nodes -> In (st_id s, o) mx_plan -> (ob_volume o == rg_volume rx_graph (fst (st_id s)) * st_share s)%Q) /\
  (forall ne a b, In ne mx_edges -> In (ne_from ne, a) mx_plan -> In (ne_to ne, b) mx_plan ->
     (inject_Z (ob_finish a) + ne_lag ne <= inject_Z (ob_start b))%Q) /\
  (forall ne, In ne mx_edges -> comes_before (map fst mx_plan) (ne_from ne) (ne_to ne)).
Proof.
  assert (E : restructure rx_graph true = Some (mx_nodes, mx_edges)) by (vm_compute; reflexivity).
  assert (Ef : map fst mx_plan = map st_id mx_nodes) by (vm_compute; reflexivity).
  split; [apply rx_ok|]. split; [exact E|]. split; [|split; [|split; [|split; [|split; [|split; [|split; [|split]]]]]]].
  - intros w _. apply plain_clean, plain_app; [|apply digits_plain]. vm_compute. repeat constructor; discriminate.
  - intros v w _ _ H. apply app_inv_head in H. apply digits_inj, H.
  - intros l. split; [apply sort_perm|apply sort_ascending].
  - rewrite Ef. apply Permutation_refl.
  - intros i o H. revert H. unfold mx_plan. generalize (combine mx_nodes (seq 0 10)). intros nodes H. apply in_map_iff in H as ([s k] & Heq & _). apply pair_equal_spec in Heq as [<- <-]. unfold mx_object. cbn [ob_id ob_granular ob_start ob_finish fst snd]. split; [reflexivity|]. split; [reflexivity|lia].
  - intros w _. apply stage_names. apply plain_clean. vm_compute. repeat constructor; discriminate.
  - assert (C : forallb (fun s => forallb (fun x => negb (nid_eqb (st_id s) (fst x)) || Qeq_bool (ob_volume (snd x)) (rg_volume rx_graph (fst (st_id s)) * st_share s)) mx_plan) mx_nodes = true) by (vm_compute; reflexivity).
    intros s o Hs Ho. rewrite forallb_forall in C. specialize (C s Hs). rewrite forallb_forall in C. specialize (C _ Ho). cbn [fst snd] in C.
    apply orb_true_iff in C as [C|C]; [|apply Qeq_bool_iff, C]. apply negb_true_iff in C. assert (X : nid_eqb (st_id s) (st_id s) = true) by (apply nid_eqb_spec; reflexivity). congruence.
  - assert (C : forallb (fun ne => forallb (fun x => forallb (fun y => negb (nid_eqb (ne_from ne) (fst x)) || negb (nid_eqb (ne_to ne) (fst y)) ||
       Qle_bool (inject_Z (ob_finish (snd x)) + ne_lag ne) (inject_Z (ob_start (snd y)))) mx_plan) mx_plan) mx_edges = true) by (vm_compute; reflexivity).
    intros ne a b Hn Ha Hb. rewrite forallb_forall in C. specialize (C ne Hn). rewrite forallb_forall in C. specialize (C _ Ha). rewrite forallb_forall in C. specialize (C _ Hb). cbn [fst snd] in C.
    assert (X : forall i, nid_eqb i i = true) by (intros i; apply nid_eqb_spec; reflexivity). rewrite !X in C. apply Qle_bool_iff. exact C.
  - destruct (restructure_correct rx_graph true (rx_ok true)) as (stages & edges & R & _ & _ & _ & _ & Ord & _). rewrite E in R. apply some_pair in R as [En <-].
    intros ne Hn. rewrite Ef, En. apply (Ord ne Hn).
Qed.

(** ** Findings *)
(** A work whose id ends in "_stage": its stage is taken for a stage of another work. Work "a"
    (volume 1, days 0-1) gets the volume and the finish of a stage of work "a_stage". *)
Definition mx_row (id : string) (volume : Q) (cost start finish : Z) : row :=
  row_of (Ob (of_string id) (of_string "n") (of_string "g_stage_0_stage_1") volume cost start finish []).
Theorem stage_suffix_confuses :
  stage_id (of_string "a_stage") 0 = of_string "a_stage_stage_0" /\
  option_map (map (fun r => (string_of_list_ascii (rw_id r), rw_volume r, rw_start r, rw_finish r)))
    (fix_split_tasks (fun key => sort_by key) (fun l => l) mx_table [mx_row "a" 1 0 0 1; mx_row "a_stage_stage_0" 5 0 1 6; mx_row "a_stage" 5 0 6 11])
  = Some [("a"%string, 6%Q, 0, 6); ("a_stage"%string, 10%Q, 1, 11)].
Proof. split; vm_compute; reflexivity. Qed.
Print Assumptions stage_suffix_confuses.
(** The cost of a united work is that of its last stage alone. *)
Theorem united_cost_lost :
  option_map (map rw_cost) (unite_stages (fun key => sort_by key) (fun l => l) mx_table [mx_row "b_stage_0" 1 30 0 1; mx_row "b" 1 12 1 2]) = Some [12].
Proof. vm_compute. reflexivity. Qed.
Print Assumptions united_cost_lost.
(** The stages of a work all have the same granular name, hence the same number. A sort that is
    not stable may put another stage last: the united work then has the id of a stage. *)
Theorem unstable_sort_keeps_stage_id : exists sort : (row -> Z) -> list row -> list row,
  (forall key l, Permutation (sort key l) l /\ StronglySorted (fun a b => key a <= key b) (sort key l)) /\
  option_map (map (fun r => string_of_list_ascii (rw_id r))) (unite_stages sort (fun l => l) mx_table [mx_row "b_stage_0" 1 30 0 1; mx_row "b" 1 12 1 2]) = Some ["b_stage_0"%string].
Proof.
  exists (fun key l => sort_by key (rev l)). split; [|vm_compute; reflexivity].
  intros key l. split; [eapply Permutation_trans; [apply sort_perm|apply Permutation_sym, Permutation_rev]|apply sort_ascending].
Qed.
Print Assumptions unstable_sort_keeps_stage_id.
(** The days of a merged row are counted inclusively, those of a single row are not: one work of
    2 days has a duration of 2, the same work in two stages one of 3. *)
Theorem merged_duration_one_longer :
  option_map (map rw_duration) (fix_split_tasks (fun key => sort_by key) (fun l => l) mx_table [mx_row "b" 1 0 0 2]) = Some [2] /\
  option_map (map rw_duration) (fix_split_tasks (fun key => sort_by key) (fun l => l) mx_table [mx_row "b_stage_0" 1 0 0 1; mx_row "b" 1 0 1 2]) = Some [3].
Proof. split; vm_compute; reflexivity. Qed.
Print Assumptions merged_duration_one_longer.
