(** Lemmas about the node orders. *)
From Coq Require Import ZArith List Bool Lia Arith Relations Sorted Permutation ZifyBool ZifyNat.
From Verif Require Import TimeModel MomentumModel GraphModel ScheduleSpec ScheduleInv Digraph StableSort TopoModel TopoProofs
  TopoTheorems HeadModel HeadProofs PriorityModel.
Import ListNotations.
Local Open Scope Z_scope.

(** ** Sorting *)
Lemma ascending_before {A} (key : A -> Z) l x y :
  ascending key l -> In x l -> In y l -> key x < key y -> comes_before l x y.
Proof.
  intros Ha. induction Ha as [|z l Hl IH Hf]; intros Hx Hy Hk; [destruct Hx|].
  rewrite Forall_forall in Hf. destruct Hx as [<-|Hx], Hy as [<-|Hy].
  - lia.
  - apply in_split in Hy as (p & q & ->). exists [], p, q. reflexivity.
  - apply Hf in Hx. lia.
  - destruct (IH Hx Hy Hk) as (p & q & r & ->). exists (z :: p), q, r. reflexivity.
Qed.
Lemma sort_topological (R : nat -> nat -> Prop) key l :
  (forall x y, R x y -> In x l -> In y l -> key x < key y) -> topological R (sort_by key l).
Proof.
  intros H x y Hxy Hx Hy. apply (Permutation_in _ (sort_perm key l)) in Hx as Hx'. apply (Permutation_in _ (sort_perm key l)) in Hy as Hy'.
  apply (ascending_before key); auto. apply sort_ascending.
Qed.
Lemma concat_perm (ls ms : list (list nat)) : Forall2 (@Permutation nat) ls ms -> Permutation (concat ls) (concat ms).
Proof. induction 1; simpl; [constructor|]. apply Permutation_app; assumption. Qed.

(** ** Priority groups *)
Section Groups.
  Variable prio : nat -> Z.
  Variable nodes : list nat.
  Hypothesis Hnd : NoDup nodes.
  Variable R : nat -> nat -> Prop.
  Hypothesis Hp : forall x y, R x y -> In x nodes -> In y nodes -> prio x <= prio y.

  Lemma grouped ps ls : StronglySorted Z.lt ps ->
    Forall2 (fun p l => Permutation l (priority_group prio nodes p) /\ topological R l) ps ls ->
    NoDup (concat ls) /\ (forall x, In x (concat ls) <-> In x nodes /\ In (prio x) ps) /\
    ascending prio (concat ls) /\ topological R (concat ls).
  Proof.
    intros Hs HF. revert Hs. induction HF as [|p l ps ls [HP HT] HF IH]; intros Hs.
    - simpl. split; [constructor|]. split; [tauto|]. split; [constructor|]. intros x y _ [].
    - apply StronglySorted_inv in Hs as [Hs Hf]. destruct (IH Hs) as (Hn & Hi & Ha & Ht). rewrite Forall_forall in Hf.
      assert (Hl : forall x, In x l <-> In x nodes /\ prio x = p).
      { intros x. rewrite <- priority_group_in. split; apply Permutation_in; [exact HP|apply Permutation_sym; exact HP]. }
      cbn [concat]. split; [|split; [|split]].
      + apply nodup_app_i; [|exact Hn|].
        * eapply Permutation_NoDup; [apply Permutation_sym; exact HP|]. apply NoDup_filter. exact Hnd.
        * intros x H1 H2. apply Hl in H1 as [_ E]. apply Hi in H2 as [_ H2]. apply Hf in H2. lia.
      + intros x. rewrite in_app_iff, Hl, Hi. simpl. intuition congruence.
      + clear -Hl Hi Ha Hf. assert (Hl' : forall x, In x l -> prio x = p) by (intros x Hx; apply Hl in Hx; tauto). clear Hl.
        induction l as [|x l IHl]; simpl; [exact Ha|]. constructor; [apply IHl; intros; apply Hl'; right; assumption|].
        apply Forall_forall. intros y Hy. assert (prio x = p) by (apply Hl'; left; reflexivity).
        apply in_app_or in Hy as [Hy|Hy]; [rewrite (Hl' y (or_intror Hy)); lia|]. apply Hi in Hy as [_ Hy]. apply Hf in Hy. lia.
      + intros x y Hxy Hx Hy. apply in_app_or in Hx, Hy. destruct Hx as [Hx|Hx], Hy as [Hy|Hy].
        * apply comes_before_app_l. apply HT; assumption.
        * apply comes_before_app_lr; assumption.
        * exfalso. apply Hi in Hx as [Hx1 Hx]. apply Hl in Hy as [Hy1 Hy]. apply Hf in Hx. specialize (Hp x y Hxy Hx1 Hy1). lia.
        * apply comes_before_app_r. apply Ht; assumption.
  Qed.
  Lemma grouped_all ls :
    Forall2 (fun p l => Permutation l (priority_group prio nodes p) /\ topological R l) (priority_values prio nodes) ls ->
    Permutation (concat ls) nodes /\ ascending prio (concat ls) /\ topological R (concat ls).
  Proof.
    intros HF. destruct (grouped _ _ (priority_values_sorted prio nodes) HF) as (Hn & Hi & Ha & Ht).
    split; [|auto]. apply NoDup_Permutation; [exact Hn|exact Hnd|]. intros x. rewrite Hi, priority_values_in. split; [tauto|]. intros Hx. eauto.
  Qed.
End Groups.

(** ** Path weights *)
(** There is a downward path from [v] whose works, the last one excepted, weigh [z]. *)
Inductive descends (R : nat -> nat -> Prop) (w : nat -> Z) : nat -> Z -> Prop :=
  | descends_stop v : descends R w v 0
  | descends_step v c z : R v c -> descends R w c z -> descends R w v (w v + z).

Section FordBellman.
  Variable nodes : list nat.
  Variable w : nat -> Z.
  Variable parent_ids : nat -> list nat.
  Hypothesis Hnd : NoDup nodes.
  Definition above (x y : nat) : Prop := In x nodes /\ In y nodes /\ In x (parent_ids y).
  Hypothesis Ht : topological above nodes.
  Let es := fb_edges nodes w parent_ids.

  Lemma fb_edges_in f s z : In (f, s, z) es <-> above f s /\ z = w f.
  Proof.
    unfold es, fb_edges, above. split.
    - intros H. apply (Permutation_in _ (sort_perm _ _)) in H. apply (Permutation_in _ (sort_perm _ _)) in H.
      apply in_concat in H as (x & Hx & H). apply in_map_iff in Hx as (n & <- & Hn). apply in_map_iff in H as (m & [= <- <- <-] & Hm).
      apply filter_In in Hm as [Hm Hm']. apply mem_in in Hm'. auto.
    - intros [(Hf & Hs & Hp) ->]. apply (Permutation_in _ (Permutation_sym (sort_perm _ _))).
      apply (Permutation_in _ (Permutation_sym (sort_perm _ _))). apply in_concat. eexists.
      split; [apply in_map_iff; exists s; split; [reflexivity|exact Hs]|]. apply in_map_iff. exists f. split; [reflexivity|].
      apply filter_In. split; [exact Hp|]. apply mem_in. exact Hf.
  Qed.
  Lemma above_irrefl x : ~ above x x.
  Proof. intros H. assert (H' := H). destruct H' as [Hx _]. eapply comes_before_irrefl; [exact Hnd|]. apply Ht; eauto. Qed.

  Definition eff (pw : nat -> Z) (cur : nat) (curw : Z) : nat -> Z := fupd pw cur curw.

  Lemma relax_spec : forall l pw cur curw ch, (forall f s z, In (f, s, z) l -> above f s /\ z = w f) ->
    (forall v, descends above w v (eff pw cur curw v)) ->
    let '(pw', cur', curw', ch') := relax l pw cur curw ch in
    (forall v, descends above w v (eff pw' cur' curw' v)) /\
    (forall v, eff pw' cur' curw' v <= eff pw cur curw v) /\
    (forall f s z, In (f, s, z) l -> eff pw' cur' curw' f <= eff pw cur curw s + z) /\
    (ch' = false -> ch = false /\ (forall f s z, In (f, s, z) l -> eff pw cur curw f <= eff pw cur curw s + z) /\
       (curw = pw cur -> (forall v, pw' v = pw v) /\ curw' = pw' cur')).
  Proof.
    induction l as [|[[f s] z] l IH]; intros pw cur curw ch Hl Hd; cbn [relax].
    - split; [exact Hd|]. split; [intros; lia|]. split; [intros f s z []|]. intros ->. split; [reflexivity|]. split; [intros f s z []|]. auto.
    - set (pw1 := if Nat.eqb cur f then pw else fupd pw cur curw).
      set (curw1 := if Nat.eqb cur f then curw else pw1 f).
      assert (E1 : forall v, eff pw1 f curw1 v = eff pw cur curw v).
      { intros v. unfold eff, curw1, pw1, fupd. destruct (Nat.eqb_spec cur f) as [->|Hne]; [reflexivity|].
        destruct (Nat.eqb_spec v f) as [->|]; [|reflexivity]. destruct (Nat.eqb_spec f cur); [congruence|reflexivity]. }
      destruct (Hl f s z) as [Hfs ->]; [left; reflexivity|].
      assert (Hsf : s <> f) by (intros ->; apply (above_irrefl f Hfs)).
      assert (Es : pw1 s = eff pw cur curw s).
      { rewrite <- E1. unfold eff, fupd. destruct (Nat.eqb_spec s f); congruence. }
      assert (Ef : curw1 = eff pw cur curw f).
      { rewrite <- E1. unfold eff, fupd. rewrite Nat.eqb_refl. reflexivity. }
      rewrite Es. destruct (Z.ltb_spec (eff pw cur curw s + w f) curw1) as [Hlt|Hge].
      + specialize (IH pw1 f (eff pw cur curw s + w f) true). destruct (relax l pw1 f (eff pw cur curw s + w f) true) as [[[pw' cur'] curw'] ch'].
        assert (G2 : forall v, eff pw1 f (eff pw cur curw s + w f) v <= eff pw cur curw v).
        { intros v. rewrite <- (E1 v). unfold eff at 1 3, fupd. destruct (Nat.eqb v f); lia. }
        destruct IH as (I1 & I2 & I3 & I4).
        * intros; apply Hl; right; assumption.
        * intros v. unfold eff, fupd. destruct (Nat.eqb_spec v f) as [->|].
          -- rewrite Z.add_comm. apply (descends_step above w f s (eff pw cur curw s)); [exact Hfs|apply Hd].
          -- replace (pw1 v) with (eff pw cur curw v); [apply Hd|]. rewrite <- E1. unfold eff, fupd. destruct (Nat.eqb_spec v f); congruence.
        * split; [exact I1|]. split; [intros v; specialize (I2 v); specialize (G2 v); lia|]. split.
          -- intros f' s' z' [[= <- <- <-]|Hin].
             ++ specialize (I2 f). unfold eff at 2, fupd at 1 in I2. rewrite Nat.eqb_refl in I2. exact I2.
             ++ specialize (I3 f' s' z' Hin). specialize (G2 s'). lia.
          -- intros E. destruct (I4 E). discriminate.
      + specialize (IH pw1 f curw1 ch). destruct (relax l pw1 f curw1 ch) as [[[pw' cur'] curw'] ch'].
        destruct IH as (I1 & I2 & I3 & I4).
        * intros; apply Hl; right; assumption.
        * intros v. rewrite E1. apply Hd.
        * split; [exact I1|]. split; [intros v; rewrite <- E1; apply I2|]. split.
          -- intros f' s' z' [[= <- <- <-]|Hin].
             ++ specialize (I2 f). rewrite E1 in I2. lia.
             ++ specialize (I3 f' s' z' Hin). rewrite E1 in I3. exact I3.
          -- intros E. destruct (I4 E) as (E2 & I5 & I6). split; [exact E2|]. split.
             ++ intros f' s' z' [[= <- <- <-]|Hin]; [lia|]. specialize (I5 f' s' z' Hin). rewrite !E1 in I5. exact I5.
             ++ intros Ec. destruct I6 as [I6 I7].
                { unfold curw1, pw1. destruct (Nat.eqb_spec cur f) as [->|]; [exact Ec|reflexivity]. }
                split; [|exact I7]. intros v. rewrite I6. unfold pw1. destruct (Nat.eqb cur f); [reflexivity|].
                unfold fupd. destruct (Nat.eqb_spec v cur); congruence.
  Qed.

  (** [pw v] is not above any path weight *)
  Definition optimal (pw : nat -> Z) (v : nat) : Prop := forall z, descends above w v z -> pw v <= z.

  Lemma fixpoint_optimal pw : (forall v, pw v <= 0) -> (forall f s, above f s -> pw f <= pw s + w f) -> forall v, optimal pw v.
  Proof.
    intros H0 H1 v z H. induction H as [v|v c z Hc H IH]; [apply H0|]. specialize (H1 v c Hc). lia.
  Qed.

  Lemma rounds_spec : forall k pw done todo, nodes = todo ++ done -> (length todo <= k)%nat ->
    (forall v, descends above w v (pw v)) -> (forall v, pw v <= 0) -> (forall v, In v done -> optimal pw v) ->
    (forall v, descends above w v (fb_rounds k es pw v)) /\ forall v, In v nodes -> optimal (fb_rounds k es pw) v.
  Proof.
    induction k as [|k IH]; intros pw done todo En Hk Hd H0 Ho.
    - destruct todo; [|simpl in Hk; lia]. simpl. split; [exact Hd|]. intros v Hv. apply Ho. rewrite En in Hv. exact Hv.
    - cbn [fb_rounds]. destruct es as [|[[f0 s0] z0] es'] eqn:Ees.
      + split; [exact Hd|]. intros v _. apply fixpoint_optimal; [exact H0|]. intros f s Hfs. exfalso.
        assert (Hin : In (f, s, w f) es) by (apply fb_edges_in; auto). rewrite Ees in Hin. destruct Hin.
      + rewrite <- Ees in IH |- *. assert (HR := relax_spec es pw f0 (pw f0) false).
        assert (E0 : forall v, eff pw f0 (pw f0) v = pw v).
        { intros v. unfold eff, fupd. destruct (Nat.eqb_spec v f0); congruence. }
        destruct (relax es pw f0 (pw f0) false) as [[[pw1 cur] curw] ch]. destruct HR as (I1 & I2 & I3 & I4).
        * intros f s z H. apply fb_edges_in. exact H.
        * intros v. rewrite E0. apply Hd.
        * destruct ch.
          -- assert (Hrest : forall v, In v nodes -> (forall c, above v c -> optimal pw c) -> optimal (fupd pw1 cur curw) v).
             { intros v _ Hc z Hz. change (eff pw1 cur curw v <= z). inversion Hz as [v' E1 E2|v' c z' Hvc Hz' E1 E2]; subst.
               - specialize (I2 v). rewrite E0 in I2. specialize (H0 v). lia.
               - specialize (I3 v c (w v)). rewrite E0 in I3. specialize (Hc c Hvc z' Hz').
                 assert (In (v, c, w v) es) by (apply fb_edges_in; auto). specialize (I3 H). lia. }
             assert (Hsplit : todo = [] \/ exists t x, todo = t ++ [x]).
             { destruct todo as [|a t]; [auto|]. right. destruct (exists_last (l := a :: t)) as (t' & x & E); [discriminate|]. eauto. }
             assert (Hdone : forall v, In v done -> optimal (fupd pw1 cur curw) v).
             { intros v Hv z Hz. specialize (Ho v Hv z Hz). specialize (I2 v). rewrite E0 in I2. unfold eff in I2. lia. }
             destruct Hsplit as [->|(t & x & ->)].
             ++ apply (IH _ done []); auto; [simpl; lia|]. intros v. specialize (I2 v). rewrite E0 in I2. specialize (H0 v). unfold eff in I2. lia.
             ++ apply (IH _ (x :: done) t); auto.
                ** rewrite En, <- app_assoc. reflexivity.
                ** rewrite app_length in Hk. simpl in Hk. lia.
                ** intros v. specialize (I2 v). rewrite E0 in I2. specialize (H0 v). unfold eff in I2. lia.
                ** intros v [<-|Hv]; [|apply Hdone; exact Hv]. apply Hrest; [rewrite En; apply in_or_app; left; apply in_or_app; right; left; reflexivity|].
                   intros c Hc. apply Ho. assert (Hb : comes_before nodes x c) by (apply Ht; [exact Hc|apply Hc|apply Hc]).
                   assert (Hcn : In c nodes) by apply Hc. rewrite En, <- app_assoc in Hcn. apply in_app_or in Hcn as [Hcn|[<-|Hcn]]; [|destruct (above_irrefl _ Hc)|exact Hcn].
                   exfalso. apply (comes_before_asym nodes x c Hnd Hb). rewrite En, <- app_assoc. simpl. apply comes_before_app_lr; [exact Hcn|left; reflexivity].
          -- destruct (I4 eq_refl) as (_ & I5 & I6). destruct (I6 eq_refl) as [I7 _]. split.
             ++ intros v. rewrite I7. apply Hd.
             ++ intros v _ z Hz. rewrite I7. apply (fixpoint_optimal pw); [exact H0| |exact Hz].
                intros f s Hfs. specialize (I5 f s (w f)). rewrite !E0 in I5. apply I5. apply fb_edges_in. auto.
  Qed.

  Lemma ford_bellman_spec : (forall v, descends above w v (ford_bellman nodes w parent_ids v)) /\
    forall v, In v nodes -> optimal (ford_bellman nodes w parent_ids) v.
  Proof.
    unfold ford_bellman. apply (rounds_spec _ _ [] nodes).
    - rewrite app_nil_r. reflexivity.
    - lia.
    - intros v. apply descends_stop.
    - intros; lia.
    - intros v [].
  Qed.
  Lemma ford_bellman_edge x y : above x y -> ford_bellman nodes w parent_ids x <= ford_bellman nodes w parent_ids y + w x.
  Proof.
    intros H. destruct ford_bellman_spec as [Hd Ho]. rewrite Z.add_comm. apply (Ho x (proj1 H)).
    eapply descends_step; [exact H|apply Hd].
  Qed.
End FordBellman.
