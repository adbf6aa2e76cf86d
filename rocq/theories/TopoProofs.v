(** Proofs about level-by-level topological sorting. *)
From Coq Require Import ZArith List Bool Lia Arith Relations Sorted Permutation.
From Verif Require Import ScheduleSpec ScheduleInv Digraph StableSort TopoModel.
Import ListNotations.

Lemma mem_in x l : mem x l = true <-> In x l.
Proof. apply existsb_in. Qed.
Lemma mem_nin x l : mem x l = false <-> ~ In x l.
Proof. apply existsb_nin. Qed.
Lemma mem_nin' x l : negb (mem x l) = true <-> ~ In x l.
Proof. rewrite negb_true_iff. apply mem_nin. Qed.

Definition dep_of (d : deps) (x y : nat) : Prop := exists ds, In (y, ds) d /\ In x ds.
Definition closed (d : deps) : Prop := forall y ds x, In (y, ds) d -> In x ds -> In x (map fst d).
(** Everything a node of a level depends on is in an earlier level. *)
Definition levels_ok (d : deps) (ls : list (list nat)) : Prop :=
  forall pre L post y ds x, ls = pre ++ L :: post -> In y L -> In (y, ds) d -> In x ds -> In x (concat pre).

Lemma deps_key (d : deps) y ds : In (y, ds) d -> In y (map fst d).
Proof. intros H. apply in_map_iff. exists (y, ds). auto. Qed.
Lemma deps_unique (d : deps) y ds ds' : NoDup (map fst d) -> In (y, ds) d -> In (y, ds') d -> ds = ds'.
Proof.
  induction d as [|[z e] d IH]; simpl; intros Hnd H H'; [destruct H|]. inversion Hnd; subst.
  destruct H as [[= -> ->]|H], H' as [[= E]|H'].
  - auto.
  - exfalso. apply deps_key in H'. auto.
  - subst. exfalso. apply deps_key in H. auto.
  - auto.
Qed.
Lemma nodup_keys_filter (f : nat * list nat -> bool) (d : deps) : NoDup (map fst d) -> NoDup (map fst (filter f d)).
Proof.
  induction d as [|x d IH]; simpl; intros H; [constructor|]. inversion H; subst.
  destruct (f x); simpl; [constructor|]; auto. intros Hin. apply H2.
  apply in_map_iff in Hin as (z & E & Hz). apply filter_In in Hz as [Hz _]. rewrite <- E. apply in_map. exact Hz.
Qed.
Lemma ready_in d x : In x (ready d) <-> In (x, []) d.
Proof.
  unfold ready. rewrite in_map_iff. split.
  - intros ([y ds] & E & H). apply filter_In in H as [H E']. simpl in *. subst. destruct ds; [exact H|discriminate].
  - intros H. exists (x, []). split; [reflexivity|]. apply filter_In. auto.
Qed.
Lemma minus_in o d x ds : In (x, ds) (minus o d) <->
  ~ In x o /\ exists ds', In (x, ds') d /\ ds = filter (fun e => negb (mem e o)) ds'.
Proof.
  unfold minus. rewrite in_map_iff. split.
  - intros ([y e] & [= E1 E2] & H). apply filter_In in H as [H Hm]. simpl in *. subst. apply mem_nin' in Hm. eauto.
  - intros (Hn & ds' & H & ->). exists (x, ds'). split; [reflexivity|]. apply filter_In. split; [exact H|]. apply mem_nin'. exact Hn.
Qed.
Lemma minus_keys o d x : In x (map fst (minus o d)) <-> In x (map fst d) /\ ~ In x o.
Proof.
  rewrite !in_map_iff. split.
  - intros ([y e] & <- & H). apply minus_in in H as (Hn & ds' & H & _). split; [exists (y, ds'); auto|exact Hn].
  - intros (([y e] & <- & H) & Hn). exists (y, filter (fun x => negb (mem x o)) e). split; [reflexivity|]. apply minus_in. split; [exact Hn|]. eauto.
Qed.
Lemma minus_nodup o d : NoDup (map fst d) -> NoDup (map fst (minus o d)).
Proof.
  intros H. unfold minus. rewrite map_map. simpl. change (map (fun x => fst x)) with (map (@fst nat (list nat))).
  apply nodup_keys_filter. exact H.
Qed.
Lemma minus_length o d x : In x o -> In x (map fst d) -> length (minus o d) < length d.
Proof.
  intros Ho Hx. unfold minus. rewrite map_length.
  induction d as [|[y e] d IH]; simpl in *; [destruct Hx|].
  assert (Hle : length (filter (fun x => negb (mem (fst x) o)) d) <= length d).
  { clear. induction d as [|z d IH]; simpl; [lia|]. destruct (negb _); simpl; lia. }
  destruct (mem y o) eqn:E; simpl; [lia|]. destruct Hx as [->|Hx].
  - apply mem_nin in E. contradiction.
  - specialize (IH Hx). lia.
Qed.
Lemma minus_closed o d : closed d -> closed (minus o d).
Proof.
  intros Hc y ds x Hy Hx. apply minus_in in Hy as (Hn & ds' & Hy & ->). apply filter_In in Hx as [Hx Hm].
  apply minus_keys. split; [eapply Hc; eauto|]. apply mem_nin'. exact Hm.
Qed.
Lemma path_incl (R R' : nat -> nat -> Prop) x y : (forall a b, R a b -> R' a b) -> path R x y -> path R' x y.
Proof. intros H. induction 1; [apply t_step; auto|eapply t_trans; eauto]. Qed.

Lemma topo_loop_spec : forall fuel d, NoDup (map fst d) -> closed d -> length d < fuel ->
  match topo_loop fuel d with
  | Levels ls => Permutation (concat ls) (map fst d) /\ levels_ok d ls
  | Circular => exists x, path (dep_of d) x x
  | OutOfFuel => False
  end.
Proof.
  induction fuel as [|fuel IH]; intros d Hnd Hc Hlen; [lia|]. cbn [topo_loop].
  destruct (ready d) as [|r0 rs] eqn:Er.
  - destruct d as [|x0 d0] eqn:Ed.
    + split; [constructor|]. intros pre L post y ds x E. destruct pre; discriminate.
    + rewrite <- Ed in *. clear IH.
      destruct (finite_cycle (fun a b => dep_of d b a) (map fst d)) as (x & Hx & Hp).
      * rewrite Ed. discriminate.
      * intros y Hy. apply in_map_iff in Hy as ([y' ds] & <- & Hy). simpl in *.
        destruct ds as [|z ds]; [assert (In y' (ready d)) by (apply ready_in; exact Hy); rewrite Er in *; contradiction|].
        exists z. split; [eapply Hc; [exact Hy|left; reflexivity]|]. exists (z :: ds). split; [exact Hy|left; reflexivity].
      * exists x. apply path_flip. exact Hp.
  - rewrite <- Er. set (o := ready d) in *.
    assert (Hok : forall x, In x o -> In x (map fst d)).
    { intros x Hx. apply ready_in in Hx. eapply deps_key; eauto. }
    assert (Hr0 : In r0 o) by (rewrite Er; left; reflexivity).
    assert (Hlt := minus_length o d r0 Hr0 (Hok _ Hr0)).
    specialize (IH (minus o d) (minus_nodup o d Hnd) (minus_closed o d Hc) ltac:(lia)).
    destruct (topo_loop fuel (minus o d)) as [ls| |]; [|destruct IH as [x Hx]; exists x|exact IH].
    + destruct IH as [IP IL]. split.
      * simpl. assert (Hno : NoDup o).
        { unfold o, ready. apply nodup_keys_filter. exact Hnd. }
        apply NoDup_Permutation; [|exact Hnd|].
        -- assert (NoDup (concat ls)) by (eapply Permutation_NoDup; [apply Permutation_sym; exact IP|apply minus_nodup; exact Hnd]).
           assert (G : forall l1 l2 : list nat, NoDup l1 -> NoDup l2 -> (forall x, In x l1 -> In x l2 -> False) -> NoDup (l1 ++ l2)).
           { clear. induction l1 as [|x l1 IH]; intros l2 H1 H2 Hd; simpl; [exact H2|]. inversion H1; subst. constructor.
             - rewrite in_app_iff. intros [H|H]; [contradiction|apply (Hd x); [left; reflexivity|exact H]].
             - apply IH; auto. intros y Hy. apply Hd. right. exact Hy. }
           apply G; auto. intros x Hx Hx'. apply (Permutation_in _ IP) in Hx'. apply minus_keys in Hx' as [_ Hx']. contradiction.
        -- intros x. rewrite in_app_iff. split.
           ++ intros [Hx|Hx]; [auto|]. apply (Permutation_in _ IP) in Hx. apply minus_keys in Hx. tauto.
           ++ intros Hx. destruct (in_dec Nat.eq_dec x o) as [Ho|Ho]; [auto|]. right.
              apply (Permutation_in _ (Permutation_sym IP)). apply minus_keys. auto.
      * intros pre L post y ds x E Hy Hd Hx. destruct pre as [|P pre]; simpl in E; injection E as E1 E2.
        -- subst L. apply ready_in in Hy. assert (ds = []) by (eapply deps_unique; eauto). subst. destruct Hx.
        -- subst P. simpl. apply in_or_app. destruct (in_dec Nat.eq_dec x o) as [Ho|Ho]; [left; exact Ho|right].
           assert (Hy' : In y (concat ls)).
           { apply in_concat. exists L. split; [rewrite E2; apply in_or_app; right; left; reflexivity|exact Hy]. }
           apply (Permutation_in _ IP) in Hy'. apply minus_keys in Hy' as [_ Hyn].
           eapply (IL pre L post y); [exact E2|exact Hy| |].
           ++ apply minus_in. split; [exact Hyn|]. exists ds. auto.
           ++ apply filter_In. split; [exact Hx|]. apply mem_nin'. exact Ho.
    + eapply path_incl; [|exact Hx]. intros a b (ds & H1 & H2). apply minus_in in H1 as (_ & ds' & H1 & ->).
      apply filter_In in H2 as [H2 _]. exists ds'. auto.
Qed.

(** Listing the levels one after another, each in any order, is a topological order. *)
Lemma levels_topological (R : nat -> nat -> Prop) ls lss :
  (forall pre L post y x, ls = pre ++ L :: post -> In y L -> R x y -> In x (concat pre)) ->
  Forall2 (@Permutation nat) lss ls ->
  Permutation (concat lss) (concat ls) /\ topological R (concat lss).
Proof.
  intros HL HF.
  assert (HP' : forall a b, Forall2 (@Permutation nat) a b -> Permutation (concat a) (concat b)).
  { induction 1; simpl; [constructor|apply Permutation_app; assumption]. }
  split; [apply HP'; exact HF|].
  intros x y Hxy Hxi Hyi.
  assert (Hyl : In y (concat ls)) by (eapply Permutation_in; [apply HP'; exact HF|exact Hyi]).
  apply in_concat in Hyl as (L & HLin & HyL). apply in_split in HLin as (pre & post & E).
  assert (Hxp := HL pre L post y x E HyL Hxy). subst ls.
  apply Forall2_app_inv_r in HF as (p1 & p2 & F1 & F2 & ->). inversion F2 as [|L' LL p2' post' HL' F2' E1 E2]; subst.
  rewrite concat_app. simpl. apply comes_before_app_lr.
  - eapply Permutation_in; [apply Permutation_sym, HP'; exact F1|exact Hxp].
  - apply in_or_app. left. eapply Permutation_in; [apply Permutation_sym; exact HL'|exact HyL].
Qed.

Lemma drop_self_keys d : map fst (drop_self d) = map fst d.
Proof. unfold drop_self. rewrite map_map. reflexivity. Qed.
Lemma drop_self_in d y ds : In (y, ds) (drop_self d) <-> exists ds', In (y, ds') d /\ ds = filter (fun e => negb (Nat.eqb e y)) ds'.
Proof.
  unfold drop_self. rewrite in_map_iff. split.
  - intros ([z e] & [= E1 E2] & H). subst. eauto.
  - intros (ds' & H & ->). exists (y, ds'). auto.
Qed.
(** the items and the dependencies other than of an item on itself *)
Definition depends (d : deps) (x y : nat) : Prop := x <> y /\ exists ds, In (y, ds) d /\ In x ds.
Definition items (d : deps) (x : nat) : Prop := In x (map fst d) \/ exists y, depends d x y.
Lemma prepared_spec d : NoDup (map fst d) ->
  NoDup (map fst (prepared d)) /\ closed (prepared d) /\
  (forall x, In x (map fst (prepared d)) <-> items d x) /\
  (forall x y, dep_of (prepared d) x y <-> depends d x y).
Proof.
  intros Hnd.
  assert (Hdep : forall x y, dep_of (drop_self d) x y <-> depends d x y).
  { intros x y. split.
    - intros (ds & H & Hx). apply drop_self_in in H as (ds' & H & ->). apply filter_In in Hx as [Hx E].
      apply negb_true_iff, Nat.eqb_neq in E. split; [exact E|]. exists ds'. auto.
    - intros (Hne & ds & H & Hx). eexists. split; [apply drop_self_in; exists ds; split; [exact H|reflexivity]|].
      apply filter_In. split; [exact Hx|]. apply negb_true_iff, Nat.eqb_neq. exact Hne. }
  assert (Hex : forall x, In x (extra_items (drop_self d)) <-> ~ In x (map fst d) /\ exists y, depends d x y).
  { intros x. unfold extra_items. rewrite nodup_In, filter_In, drop_self_keys, mem_nin', in_concat. split.
    - intros ((l & Hl & Hx) & Hn). split; [exact Hn|]. apply in_map_iff in Hl as ([y ds] & <- & H). exists y.
      apply Hdep. exists ds. auto.
    - intros (Hn & y & Hy). split; [|exact Hn]. apply Hdep in Hy as (ds & H & Hx). exists ds. split; [|exact Hx].
      apply in_map_iff. exists (y, ds). auto. }
  assert (Hk : map fst (prepared d) = map fst d ++ extra_items (drop_self d)).
  { unfold prepared. rewrite map_app, drop_self_keys, map_map. simpl. rewrite map_id. reflexivity. }
  assert (Hin : forall y ds, In (y, ds) (prepared d) -> forall x, In x ds -> dep_of (drop_self d) x y).
  { intros y ds H x Hx. unfold prepared in H. apply in_app_or in H as [H|H].
    - exists ds. auto.
    - apply in_map_iff in H as (i & [= <- <-] & _). destruct Hx. }
  assert (Hitems : forall x, In x (map fst (prepared d)) <-> items d x).
  { intros x. rewrite Hk, in_app_iff, Hex. unfold items. split; [tauto|]. intros [H|H]; [auto|].
    destruct (in_dec Nat.eq_dec x (map fst d)); [auto|]. auto. }
  split; [|split; [|split; [exact Hitems|]]].
  - rewrite Hk. assert (G : forall l1 l2 : list nat, NoDup l1 -> NoDup l2 -> (forall x, In x l1 -> In x l2 -> False) -> NoDup (l1 ++ l2)).
    { clear. induction l1 as [|x l1 IH]; intros l2 H1 H2 Hd; simpl; [exact H2|]. inversion H1; subst. constructor.
      - rewrite in_app_iff. intros [H|H]; [contradiction|apply (Hd x); [left; reflexivity|exact H]].
      - apply IH; auto. intros y Hy. apply Hd. right. exact Hy. }
    apply G; [exact Hnd|apply NoDup_nodup|]. intros x H1 H2. apply Hex in H2. tauto.
  - intros y ds x Hy Hx. apply Hitems. right. exists y. apply Hdep. eapply Hin; eauto.
  - intros x y. split.
    + intros (ds & H & Hx). apply Hdep. eapply Hin; eauto.
    + intros H. apply Hdep in H as (ds & H & Hx). exists ds. split; [|exact Hx]. unfold prepared. apply in_or_app. auto.
Qed.

(** ** The order of _topological_sort *)
Lemma nodup_app_i (l1 l2 : list nat) : NoDup l1 -> NoDup l2 -> (forall x, In x l1 -> In x l2 -> False) -> NoDup (l1 ++ l2).
Proof.
  induction l1 as [|x l1 IH]; intros H1 H2 Hd; simpl; [exact H2|]. inversion H1; subst. constructor.
  - rewrite in_app_iff. intros [H|H]; [contradiction|apply (Hd x); [left; reflexivity|exact H]].
  - apply IH; auto. intros y Hy. apply Hd. right. exact Hy.
Qed.
Lemma priority_values_in prio nodes p : In p (priority_values prio nodes) <-> exists n, In n nodes /\ prio n = p.
Proof.
  unfold priority_values. split.
  - intros H. apply (Permutation_in _ (sort_perm _ _)) in H. apply nodup_In, in_map_iff in H as (n & E & H). eauto.
  - intros (n & H & E). apply (Permutation_in _ (Permutation_sym (sort_perm _ _))). apply nodup_In, in_map_iff. eauto.
Qed.
Lemma priority_values_sorted prio nodes : StronglySorted Z.lt (priority_values prio nodes).
Proof.
  assert (Ha := sort_ascending (fun z => z) (nodup Z.eq_dec (map prio nodes))). fold (priority_values prio nodes) in Ha.
  assert (Hd : NoDup (priority_values prio nodes)).
  { eapply Permutation_NoDup; [apply Permutation_sym, sort_perm|apply NoDup_nodup]. }
  revert Ha Hd. generalize (priority_values prio nodes). intros l Ha. induction Ha as [|x l Hl IH Hf]; intros Hd; constructor.
  - inversion Hd; auto.
  - inversion Hd; subst. rewrite Forall_forall in *. intros y Hy. specialize (Hf y Hy). simpl in Hf.
    destruct (Z.eq_dec x y) as [->|]; [contradiction|]. lia.
Qed.
Lemma priority_group_in prio nodes p x : In x (priority_group prio nodes p) <-> In x nodes /\ prio x = p.
Proof. unfold priority_group. rewrite filter_In, Z.eqb_eq. reflexivity. Qed.
