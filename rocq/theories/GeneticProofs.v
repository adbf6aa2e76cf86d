(** Lemmas about the genetic order operators. *)
From Coq Require Import ZArith List Bool Lia Arith Relations Permutation ZifyBool ZifyNat.
From Verif Require Import ScheduleSpec ScheduleInv Digraph StableSort TopoModel TopoProofs GeneticModel.
Import ListNotations.
Local Open Scope nat_scope.

(** ** Lists *)
Lemma before_nth {A} (l : list A) a b : comes_before l a b <-> exists i j, i < j /\ nth_error l i = Some a /\ nth_error l j = Some b.
Proof.
  split.
  - intros (l1 & l2 & l3 & ->). exists (length l1), (length l1 + S (length l2)). split; [lia|]. split.
    + rewrite nth_error_app2 by lia. rewrite Nat.sub_diag. reflexivity.
    + rewrite nth_error_app2 by lia. replace (length l1 + S (length l2) - length l1) with (S (length l2)) by lia. cbn [nth_error].
      rewrite nth_error_app2 by lia. rewrite Nat.sub_diag. reflexivity.
  - intros (i & j & Hij & Hi & Hj). apply nth_error_split in Hi as (l1 & l2 & -> & <-). rewrite nth_error_app2 in Hj by lia.
    destruct (j - length l1) as [|k] eqn:E; [lia|]. cbn [nth_error] in Hj. apply nth_error_split in Hj as (l3 & l4 & -> & _).
    exists l1, l3, l4. reflexivity.
Qed.
Lemma nodup_nth (l : list nat) i j x : NoDup l -> nth_error l i = Some x -> nth_error l j = Some x -> i = j.
Proof.
  intros H Hi Hj. rewrite NoDup_nth_error in H. apply H; [|congruence]. apply nth_error_Some. congruence.
Qed.
Lemma topological_nth R l : NoDup l -> (topological R l <->
  forall i j x y, nth_error l i = Some x -> nth_error l j = Some y -> R x y -> i < j).
Proof.
  intros Hnd. split.
  - intros T i j x y Hi Hj HR. assert (Hc : comes_before l x y) by (apply T; [exact HR|eapply nth_error_In; eauto ..]).
    apply before_nth in Hc as (i' & j' & Hlt & Hi' & Hj'). rewrite (nodup_nth l i i' x), (nodup_nth l j j' y); auto.
  - intros H x y HR Hx Hy. apply In_nth_error in Hx as [i Hi]. apply In_nth_error in Hy as [j Hj]. apply before_nth. exists i, j. eauto.
Qed.
Lemma topological_sub R (l l' : list nat) : (forall x y, comes_before l x y -> In x l' -> In y l' -> comes_before l' x y) -> incl l' l -> topological R l -> topological R l'.
Proof. intros H Hi T x y HR Hx Hy. apply H; auto. Qed.

Lemma before_app {A} (l1 l2 : list A) a b : comes_before (l1 ++ l2) a b -> comes_before l1 a b \/ comes_before l2 a b \/ (In a l1 /\ In b l2).
Proof.
  rewrite before_nth. intros (i & j & Hij & Hi & Hj). destruct (Nat.lt_ge_cases j (length l1)) as [H|H].
  - left. rewrite nth_error_app1 in Hi, Hj by lia. apply before_nth. eauto.
  - rewrite (nth_error_app2 l1 l2 H) in Hj. destruct (Nat.lt_ge_cases i (length l1)) as [H'|H'].
    + right. right. rewrite nth_error_app1 in Hi by lia. split; eapply nth_error_In; eauto.
    + right. left. rewrite nth_error_app2 in Hi by lia. apply before_nth. exists (i - length l1), (j - length l1). split; [lia|]. auto.
Qed.
(** Replacing a part by a reordering of it *)
Lemma topological_replace R a s s' b : NoDup (a ++ s ++ b) -> topological R (a ++ s ++ b) -> Permutation s' s -> topological R s' ->
  topological R (a ++ s' ++ b).
Proof.
  intros Hnd T P T' x y HR Hx Hy.
  assert (Hp : Permutation (a ++ s' ++ b) (a ++ s ++ b)) by (apply Permutation_app_head, Permutation_app_tail; exact P).
  assert (Hc : comes_before (a ++ s ++ b) x y) by (apply T; [exact HR|eapply Permutation_in; eauto ..]).
  assert (Hs : forall z, In z s <-> In z s') by (intros z; split; apply Permutation_in; [apply Permutation_sym|]; exact P).
  apply before_app in Hc as [Hc|[Hc|[H1 H2]]].
  - apply comes_before_app_l. exact Hc.
  - apply comes_before_app_r. apply before_app in Hc as [Hc|[Hc|[H1 H2]]].
    + apply comes_before_app_l. apply comes_before_in in Hc as [H1 H2]. apply T'; [exact HR|apply Hs; assumption ..].
    + apply comes_before_app_r. exact Hc.
    + apply comes_before_app_lr; [apply Hs|]; assumption.
  - apply comes_before_app_lr; [exact H1|]. rewrite in_app_iff in *. destruct H2; [left; apply Hs|right]; assumption.
Qed.
Lemma topological_part R (a s b : list nat) : NoDup (a ++ s ++ b) -> topological R (a ++ s ++ b) -> topological R s.
Proof.
  intros Hnd T x y HR Hx Hy.
  assert (Hc : comes_before (a ++ s ++ b) x y) by (apply T; [exact HR|rewrite !in_app_iff; tauto ..]).
  assert (Ha : forall z, In z s -> ~ In z a) by (intros z H1 H2; apply (nodup_app_disj _ _ z Hnd H2); apply in_or_app; auto).
  apply nodup_app_r in Hnd as Hnd2.
  assert (Hb : forall z, In z s -> ~ In z b) by (intros z H1 H2; apply (nodup_app_disj _ _ z Hnd2 H1 H2)).
  apply before_app in Hc as [Hc|[Hc|[H1 H2]]].
  - apply comes_before_in in Hc as [H1 _]. exfalso. apply (Ha x); auto.
  - apply before_app in Hc as [Hc|[Hc|[H1 H2]]]; [exact Hc| |].
    + apply comes_before_in in Hc as [H1 _]. exfalso. apply (Hb x); auto.
    + exfalso. apply (Hb y); auto.
  - exfalso. apply (Ha x); auto.
Qed.
Lemma filter_comes_before {A} (f : A -> bool) l x y : comes_before l x y -> f x = true -> f y = true -> comes_before (filter f l) x y.
Proof.
  intros (l1 & l2 & l3 & ->) Hx Hy. rewrite filter_app. cbn [filter]. rewrite Hx, filter_app. cbn [filter]. rewrite Hy.
  exists (filter f l1), (filter f l2), (filter f l3). reflexivity.
Qed.

(** ** The check *)
Lemma order_correct_loop_spec parents prio order : forall used, NoDup (used ++ order) ->
  (order_correct_loop parents prio used order = true <->
   forall w p, In w order -> In p (parents w) -> (p = w \/ In p used \/ comes_before order p w) /\ (prio p <= prio w)%Z).
Proof.
  induction order as [|w rest IH]; intros used Hnd; cbn [order_correct_loop].
  - split; [intros _ w p []|reflexivity].
  - assert (Hnd' : NoDup ((w :: used) ++ rest)).
    { eapply Permutation_NoDup; [|exact Hnd]. simpl. apply Permutation_sym, Permutation_middle. }
    assert (Hw : ~ In w rest) by (simpl in Hnd'; inversion Hnd'; subst; intros H; apply H1; apply in_or_app; auto).
    destruct (forallb (fun p => mem p (w :: used)) (parents w)) eqn:E1; cbn [negb].
    + rewrite forallb_forall in E1. destruct (existsb (fun p => (prio w <? prio p)%Z) (parents w)) eqn:E2.
      * split; [discriminate|]. intros H. exfalso. apply existsb_exists in E2 as (p & Hp & Hlt).
        destruct (H w p (or_introl eq_refl) Hp) as [_ H2]. lia.
      * rewrite (IH (w :: used) Hnd'). split.
        -- intros H v p [<-|Hv] Hp.
           ++ split; [specialize (E1 p Hp); apply mem_in in E1 as [<-|E1]; auto|].
              destruct (Z.le_gt_cases (prio p) (prio w)) as [Hle|Hgt]; [exact Hle|]. exfalso.
              assert (E2' : existsb (fun p => (prio w <? prio p)%Z) (parents w) = true) by (apply existsb_exists; exists p; split; [exact Hp|lia]). congruence.
           ++ destruct (H v p Hv Hp) as [[H1|[[<-|H1]|H1]] H2]; split; auto.
              ** right. right. apply in_split in Hv as (l2 & l3 & ->). exists [], l2, l3. reflexivity.
              ** right. right. destruct H1 as (l1 & l2 & l3 & ->). exists (w :: l1), l2, l3. reflexivity.
        -- intros H v p Hv Hp. destruct (H v p (or_intror Hv) Hp) as [[H1|[H1|H1]] H2]; (split; [|exact H2]).
           ++ left. exact H1.
           ++ right. left. right. exact H1.
           ++ destruct H1 as (l1 & l2 & l3 & El). destruct l1 as [|z l1]; injection El as -> ->.
              ** right. left. left. reflexivity.
              ** right. right. exists l1, l2, l3. reflexivity.
    + split; [discriminate|]. intros H. exfalso.
      assert (forallb (fun p => mem p (w :: used)) (parents w) = true); [|congruence]. apply forallb_forall. intros p Hp.
      apply mem_in. destruct (H w p (or_introl eq_refl) Hp) as [[H1|[H1|H1]] _]; [left; auto|right; exact H1|].
      exfalso. destruct H1 as (l1 & l2 & l3 & El). destruct l1 as [|z l1]; injection El as E' El; [|].
      * subst. apply Hw. apply in_or_app. right. left. reflexivity.
      * subst. apply Hw. apply in_or_app. right. right. apply in_or_app. right. left. reflexivity.
Qed.

(** ** Crossover *)
Lemma head_tail_split (l : list nat) h t : h + t <= length l ->
  exists mid, l = firstn h l ++ mid ++ last_n t l /\ length mid = length l - t - h.
Proof.
  intros H. exists (firstn (length l - t - h) (skipn h l)). split.
  - unfold last_n. assert (E : skipn (length l - t) l = skipn (length l - t - h) (skipn h l)).
    { rewrite <- (firstn_skipn h l) at 2. rewrite skipn_app. rewrite firstn_length_le by lia.
      replace (skipn (length l - t) (firstn h l)) with (@nil nat) by (symmetry; apply skipn_all2; rewrite firstn_length_le; lia).
      simpl. reflexivity. }
    rewrite E, firstn_skipn, firstn_skipn. reflexivity.
  - rewrite firstn_length_le; [reflexivity|]. rewrite skipn_length. lia.
Qed.
Lemma crossover_spec child other amount head : NoDup child -> Permutation other child ->
  (1 < amount -> 1 <= head <= amount - 1 /\ amount <= length child) ->
  exists r, crossover child other amount head = Some r /\ Permutation r child /\
    forall R, topological R child -> topological R other -> topological R r.
Proof.
  intros Hnd HP Ha. unfold crossover. destruct (Nat.ltb_spec 1 amount) as [H|H]; [|exists child; auto].
  destruct (Ha H) as [Hh Hl]. destruct (head_tail_split child head (amount - head)) as (mid & E & Hm); [lia|].
  set (a := firstn head child) in *. set (b := last_n (amount - head) child) in *. set (part := get_order_part (a ++ b) other).
  assert (Hpm : Permutation part mid).
  { apply NoDup_Permutation.
    - unfold part, get_order_part. apply NoDup_filter. eapply Permutation_NoDup; [apply Permutation_sym; exact HP|exact Hnd].
    - rewrite E in Hnd. apply nodup_app_r, nodup_app_l in Hnd. exact Hnd.
    - intros x. unfold part, get_order_part. rewrite filter_In, negb_true_iff. rewrite <- not_true_iff_false, mem_in, in_app_iff.
      rewrite E in Hnd. split.
      + intros [Hx Hn]. apply (Permutation_in _ HP) in Hx. rewrite E, !in_app_iff in Hx. tauto.
      + intros Hx. split; [apply (Permutation_in _ (Permutation_sym HP)); rewrite E, !in_app_iff; auto|].
        intros [H1|H1].
        * apply (nodup_app_disj _ _ x Hnd H1). apply in_or_app. auto.
        * apply nodup_app_r in Hnd. apply (nodup_app_disj _ _ x Hnd Hx H1). }
  rewrite (Permutation_length Hpm), Hm, Nat.eqb_refl.
  exists (a ++ part ++ b). split; [reflexivity|].
  assert (HP' : Permutation (a ++ part ++ b) child).
  { rewrite E at 1. apply Permutation_app_head, Permutation_app_tail. exact Hpm. }
  split; [exact HP'|]. intros R T1 T2. rewrite E in Hnd, T1.
  apply (topological_replace R a mid part b Hnd T1 Hpm).
  intros x y HR Hx Hy. unfold part, get_order_part in *. apply filter_In in Hx as [Hx1 Hx2], Hy as [Hy1 Hy2].
  apply filter_comes_before; auto.
Qed.

(** ** Mating *)
Lemma skipn_in {A} n (l : list A) x : In x (skipn n l) -> In x l.
Proof. intros H. rewrite <- (firstn_skipn n l). apply in_or_app. auto. Qed.
Lemma firstn_in {A} n (l : list A) x : In x (firstn n l) -> In x l.
Proof. intros H. rewrite <- (firstn_skipn n l). apply in_or_app. auto. Qed.
Lemma firstn_app_exact {A} (l1 l2 : list A) n : length l1 = n -> firstn n (l1 ++ l2) = l1.
Proof. intros <-. rewrite firstn_app, Nat.sub_diag, firstn_all, app_nil_r. reflexivity. Qed.
Lemma skipn_app_exact {A} (l1 l2 : list A) n : length l1 = n -> skipn n (l1 ++ l2) = l2.
Proof. intros <-. rewrite skipn_app, Nat.sub_diag, skipn_all. reflexivity. Qed.
Section Prio.
  Variable prio : nat -> Z.
  Definition lower x y := (prio x < prio y)%Z.
  Definition below p x := (prio x <? p)%Z.
  Lemma lower_split p l : NoDup l -> topological lower l -> l = filter (below p) l ++ filter (fun x => negb (below p x)) l.
  Proof.
    induction l as [|a l IH]; intros Hnd T; [reflexivity|]. inversion Hnd as [|? ? Ha Hnd']; subst.
    assert (T' : topological lower l).
    { change (a :: l) with ([a] ++ l) in T. rewrite <- (app_nil_r l) in T. apply (topological_part lower [a] l []); [|exact T]. rewrite app_nil_r. exact Hnd. }
    specialize (IH Hnd' T'). cbn [filter]. destruct (below p a) eqn:E; cbn [negb app]; [f_equal; exact IH|].
    assert (Hf : filter (below p) l = []).
    { destruct (filter (below p) l) as [|x f] eqn:Ef; [reflexivity|]. exfalso.
      assert (Hx : In x l /\ below p x = true) by (apply filter_In; rewrite Ef; left; reflexivity). destruct Hx as [Hx Hb].
      assert (Hc : comes_before (a :: l) x a) by (apply T; [unfold lower, below in *; lia|right; exact Hx|left; reflexivity]).
      apply before_nth in Hc as (i & j & Hij & _ & Hj). destruct j as [|j]; [lia|]. cbn [nth_error] in Hj. apply nth_error_In in Hj. contradiction. }
    rewrite Hf in *. cbn [app] in *. f_equal. exact IH.
  Qed.
  Lemma group_prefix o1 o2 i y z : NoDup o1 -> Permutation o2 o1 -> topological lower o1 -> topological lower o2 ->
    nth_error o1 i = Some y -> 1 <= i -> nth_error o1 (i - 1) = Some z -> prio z <> prio y ->
    Permutation (firstn i o2) (firstn i o1).
  Proof.
    intros Hnd HP T1 T2 Hy Hi Hz Hne.
    assert (Hnd2 : NoDup o2) by (eapply Permutation_NoDup; [apply Permutation_sym; exact HP|exact Hnd]).
    assert (E1 := lower_split (prio y) o1 Hnd T1). assert (E2 := lower_split (prio y) o2 Hnd2 T2).
    assert (PF : Permutation (filter (below (prio y)) o2) (filter (below (prio y)) o1)).
    { apply NoDup_Permutation; try (apply NoDup_filter; assumption). intros x. rewrite !filter_In. split; intros [H1 H2]; split; auto;
        eapply Permutation_in; [exact HP|exact H1|apply Permutation_sym; exact HP|exact H1]. }
    assert (Hzy : (prio z < prio y)%Z).
    { destruct (Z.lt_trichotomy (prio z) (prio y)) as [H|[H|H]]; [exact H|contradiction|]. exfalso.
      assert (H' := proj1 (topological_nth lower o1 Hnd) T1 i (i - 1) y z Hy Hz H). lia. }
    assert (Hl : length (filter (below (prio y)) o1) = i).
    { rewrite E1 in Hy, Hz. destruct (Nat.lt_trichotomy (length (filter (below (prio y)) o1)) i) as [H|[H|H]]; [|exact H|].
      - rewrite nth_error_app2 in Hz by lia. apply nth_error_In, filter_In in Hz as [_ Hz]. unfold below in Hz. lia.
      - rewrite nth_error_app1 in Hy by lia. apply nth_error_In, filter_In in Hy as [_ Hy]. unfold below in Hy. lia. }
    assert (F1 : firstn i o1 = filter (below (prio y)) o1) by (rewrite E1 at 1; apply firstn_app_exact; exact Hl).
    assert (F2 : firstn i o2 = filter (below (prio y)) o2) by (rewrite E2 at 1; apply firstn_app_exact; rewrite (Permutation_length PF); exact Hl).
    rewrite F1, F2. exact PF.
  Qed.
End Prio.

Section MateProofs.
  Variable randint : nat -> nat -> nat -> nat.
  Hypothesis Hrand : forall k lo hi, lo <= hi -> lo <= randint k lo hi <= hi.
  Lemma two_point_spec k child other m : NoDup child -> Permutation other child -> m = Nat.div (length child) 4 ->
    exists r, two_point_crossover randint k child other m = Some r /\ Permutation r child /\
      forall R, topological R child -> topological R other -> topological R r.
  Proof.
    intros Hnd HP Hm. unfold two_point_crossover. apply crossover_spec; try assumption. intros H.
    assert (Ha := Hrand (2 * k) m (3 * m) ltac:(lia)). set (amount := randint (2 * k) m (3 * m)) in *.
    assert (Hb := Hrand (2 * k + 1) 1 (amount - 1) ltac:(lia)). split; [exact Hb|].
    assert (4 * (length child / 4) <= length child) by (apply Nat.mul_div_le; lia). lia.
  Qed.
  Lemma mate_parts_spec k p1 p2 : NoDup p1 -> Permutation p2 p1 ->
    exists c1 c2, mate_parts randint k p1 p2 = Some (c1, c2) /\ Permutation c1 p1 /\ Permutation c2 p2 /\
      forall R, topological R p1 -> topological R p2 -> topological R c1 /\ topological R c2.
  Proof.
    intros Hnd HP. unfold mate_parts.
    destruct (two_point_spec (2 * k) p1 p2 (Nat.div (length p1) 4) Hnd HP eq_refl) as (c1 & E1 & P1 & T1).
    destruct (two_point_spec (2 * k + 1) p2 p1 (Nat.div (length p1) 4)) as (c2 & E2 & P2 & T2).
    - eapply Permutation_NoDup; [apply Permutation_sym; exact HP|exact Hnd].
    - apply Permutation_sym. exact HP.
    - rewrite (Permutation_length HP). reflexivity.
    - rewrite E1, E2. exists c1, c2. split; [reflexivity|]. split; [exact P1|]. split; [exact P2|]. intros R H1 H2. split; auto.
  Qed.
  Lemma mate_loop_spec prio : forall k i o1 o2 cur, i + k = length o1 -> NoDup o1 -> Permutation o2 o1 ->
    topological (lower prio) o1 -> topological (lower prio) o2 -> cur = prio (nth (i - 1) o1 0) ->
    exists c1 c2, mate_loop randint prio (seq i k) o1 o2 cur = Some (c1, c2) /\ Permutation c1 o1 /\ Permutation c2 o2 /\
      forall R, topological R o1 -> topological R o2 -> topological R c1 /\ topological R c2.
  Proof.
    induction k as [|k IH]; intros i o1 o2 cur Hk Hnd HP T1 T2 Hcur; cbn [seq mate_loop].
    { exists o1, o2. auto. }
    destruct (Z.eqb_spec (prio (nth i o1 0)) cur) as [Ep|Ep].
    { apply IH; auto; try lia. replace (S i - 1) with i by lia. auto. }
    assert (Hi : 1 <= i) by (destruct i; [simpl in Hcur; congruence|lia]).
    assert (Hnd2 : NoDup o2) by (eapply Permutation_NoDup; [apply Permutation_sym; exact HP|exact Hnd]).
    assert (HPf : Permutation (firstn i o2) (firstn i o1)).
    { apply (group_prefix prio o1 o2 i (nth i o1 0) (nth (i - 1) o1 0)); auto; try (apply nth_error_nth'; lia). rewrite <- Hcur. auto. }
    assert (HPs : Permutation (skipn i o2) (skipn i o1)).
    { apply (Permutation_app_inv_l (firstn i o1)). rewrite firstn_skipn. rewrite <- HP at 2. rewrite <- (firstn_skipn i o2) at 2.
      apply Permutation_app_tail, Permutation_sym. exact HPf. }
    assert (Hn1 : NoDup (firstn i o1)) by (rewrite <- (firstn_skipn i o1) in Hnd; apply nodup_app_l in Hnd; exact Hnd).
    destruct (mate_parts_spec i (firstn i o1) (firstn i o2) Hn1 HPf) as (c1 & c2 & E & P1 & P2 & Tc). rewrite E.
    assert (Q1 : Permutation (c1 ++ skipn i o1) o1) by (rewrite <- (firstn_skipn i o1) at 2; apply Permutation_app_tail; exact P1).
    assert (Q2 : Permutation (c2 ++ skipn i o2) o2) by (rewrite <- (firstn_skipn i o2) at 2; apply Permutation_app_tail; exact P2).
    assert (TR : forall R, topological R o1 -> topological R o2 -> topological R (c1 ++ skipn i o1) /\ topological R (c2 ++ skipn i o2)).
    { intros R R1 R2. rewrite <- (firstn_skipn i o1) in R1, Hnd. rewrite <- (firstn_skipn i o2) in R2, Hnd2.
      assert (F1 := topological_part R [] (firstn i o1) (skipn i o1) Hnd R1). assert (F2 := topological_part R [] (firstn i o2) (skipn i o2) Hnd2 R2).
      destruct (Tc R F1 F2) as [G1 G2]. split.
      - apply (topological_replace R [] (firstn i o1) c1 (skipn i o1)); assumption.
      - apply (topological_replace R [] (firstn i o2) c2 (skipn i o2)); assumption. }
    destruct (TR _ T1 T2) as [U1 U2].
    assert (Hc1 : length c1 = i) by (rewrite (Permutation_length P1); apply firstn_length_le; lia).
    destruct (IH (S i) (c1 ++ skipn i o1) (c2 ++ skipn i o2) (prio (nth i o1 0))) as (d1 & d2 & Ed & D1 & D2 & D3); auto.
    - rewrite (Permutation_length Q1). lia.
    - eapply Permutation_NoDup; [apply Permutation_sym; exact Q1|exact Hnd].
    - eapply Permutation_trans; [exact Q2|]. eapply Permutation_trans; [exact HP|]. apply Permutation_sym. exact Q1.
    - replace (S i - 1) with i by lia. f_equal. rewrite app_nth2 by lia. rewrite Hc1, Nat.sub_diag.
      rewrite <- (firstn_skipn i o1) at 1. rewrite app_nth2; rewrite firstn_length_le by lia; [|lia]. rewrite Nat.sub_diag. reflexivity.
    - exists d1, d2. split; [exact Ed|]. split; [eapply Permutation_trans; eauto|]. split; [eapply Permutation_trans; eauto|].
      intros R R1 R2. destruct (TR R R1 R2). auto.
  Qed.
End MateProofs.

(** ** Mutation *)
Lemma positions_in {A} (f : A -> bool) l j : In j (positions f l) <-> exists x, nth_error l j = Some x /\ f x = true.
Proof.
  unfold positions. rewrite in_map_iff. split.
  - intros ([j' x] & <- & H). apply filter_In in H as [H Hf]. exists x. split; [|exact Hf].
    apply In_nth_error in H as [k Hk]. cbn [fst snd] in *.
    assert (Hc : forall (a : list nat) (b : list A) k u v, nth_error (combine a b) k = Some (u, v) -> nth_error a k = Some u /\ nth_error b k = Some v).
    { induction a as [|a0 a IH]; intros [|b0 b] [|k'] u v E; simpl in *; try discriminate; [injection E as <- <-; auto|apply IH; exact E]. }
    apply Hc in Hk as [H1 H2]. assert (Hlt : k < length (seq 0 (length l))) by (apply nth_error_Some; congruence). rewrite seq_length in Hlt.
    assert (E : nth_error (seq 0 (length l)) k = Some k).
    { rewrite (nth_error_nth' _ 0) by (rewrite seq_length; exact Hlt). rewrite seq_nth by exact Hlt. reflexivity. }
    congruence.
  - intros (x & Hx & Hf). exists (j, x). split; [reflexivity|]. apply filter_In. split; [|exact Hf].
    assert (Hlt : j < length l) by (apply nth_error_Some; congruence).
    assert (Hn : nth j (combine (seq 0 (length l)) l) (0, x) = (j, x)).
    { rewrite combine_nth by apply seq_length. rewrite seq_nth by exact Hlt. f_equal. apply nth_error_nth. exact Hx. }
    rewrite <- Hn. apply nth_In. rewrite combine_length, seq_length. lia.
Qed.
Lemma fold_max_le l : forall a, a <= fold_left Nat.max l a /\ forall x, In x l -> x <= fold_left Nat.max l a.
Proof.
  induction l as [|y l IH]; intros a; simpl; [split; [lia|intros x []]|]. destruct (IH (Nat.max a y)) as [H1 H2].
  split; [lia|]. intros x [<-|H]; [lia|auto].
Qed.
Lemma fold_max_bound l b : forall a, a <= b -> (forall x, In x l -> x <= b) -> fold_left Nat.max l a <= b.
Proof. induction l as [|y l IH]; intros a Ha H; simpl; [exact Ha|]. apply IH; [|intros; apply H; right; assumption]. assert (H' := H y (or_introl eq_refl)). lia. Qed.
Lemma fold_min_le l : forall a, fold_left Nat.min l a <= a /\ forall x, In x l -> fold_left Nat.min l a <= x.
Proof.
  induction l as [|y l IH]; intros a; simpl; [split; [lia|intros x []]|]. destruct (IH (Nat.min a y)) as [H1 H2].
  split; [lia|]. intros x [<-|H]; [lia|auto].
Qed.
Lemma nth_delete l i j : nth_error (delete_at i l) j = nth_error l (if j <? i then j else S j).
Proof.
  unfold delete_at. revert i j. induction l as [|a l IH]; intros i j.
  - rewrite firstn_nil, skipn_nil. simpl. destruct (j <? i); destruct j; reflexivity.
  - destruct i as [|i]; [reflexivity|]. cbn [firstn skipn app]. destruct j as [|j]; [reflexivity|]. cbn [nth_error].
    rewrite IH. destruct (Nat.ltb_spec j i), (Nat.ltb_spec (S j) (S i)); try lia; reflexivity.
Qed.
Lemma nth_insert w l : forall p j, p <= length l -> nth_error (insert_at p w l) j =
  if j <? p then nth_error l j else if j =? p then Some w else nth_error l (j - 1).
Proof.
  unfold insert_at. intros p j Hp. destruct (Nat.ltb_spec j p) as [H|H].
  - rewrite nth_error_app1 by (rewrite firstn_length_le; lia).
    rewrite <- (firstn_skipn p l) at 2. rewrite nth_error_app1 by (rewrite firstn_length_le; lia). reflexivity.
  - rewrite nth_error_app2 by (rewrite firstn_length_le; lia). rewrite firstn_length_le by lia. destruct (Nat.eqb_spec j p) as [->|Hne].
    + rewrite Nat.sub_diag. reflexivity.
    + replace (j - p) with (S (j - 1 - p)) by lia. cbn [nth_error].
      rewrite <- (firstn_skipn p l) at 2. rewrite nth_error_app2 by (rewrite firstn_length_le; lia). rewrite firstn_length_le by lia. reflexivity.
Qed.
(** the new index of an element *)
Definition shift (i p j : nat) : nat :=
  if j =? i then p else let j' := if i <? j then j - 1 else j in if p <=? j' then j' + 1 else j'.
Lemma move_length l i p w : i < length l -> p < length l -> length (insert_at p w (delete_at i l)) = length l.
Proof.
  intros Hi Hp. assert (Hd : length (delete_at i l) = length l - 1).
  { unfold delete_at. rewrite app_length, skipn_length, firstn_length_le by lia. lia. }
  unfold insert_at. rewrite app_length. cbn [length]. rewrite skipn_length, firstn_length_le by lia. lia.
Qed.
Lemma move_nth l i p w j x : nth_error l i = Some w -> p < length l -> nth_error l j = Some x ->
  nth_error (insert_at p w (delete_at i l)) (shift i p j) = Some x.
Proof.
  intros Hi Hp Hj. assert (Hil : i < length l) by (apply nth_error_Some; congruence). assert (Hjl : j < length l) by (apply nth_error_Some; congruence).
  assert (Hd : length (delete_at i l) = length l - 1).
  { unfold delete_at. rewrite app_length, skipn_length, firstn_length_le by lia. lia. }
  rewrite nth_insert by lia. unfold shift. destruct (Nat.eqb_spec j i) as [->|Hne].
  - rewrite Nat.ltb_irrefl, Nat.eqb_refl. congruence.
  - cbv zeta. set (j' := if i <? j then j - 1 else j).
    assert (E : nth_error (delete_at i l) j' = Some x).
    { rewrite nth_delete. unfold j'. destruct (Nat.ltb_spec i j) as [H|H].
      - destruct (Nat.ltb_spec (j - 1) i); [lia|]. replace (S (j - 1)) with j by lia. exact Hj.
      - destruct (Nat.ltb_spec j i); [exact Hj|lia]. }
    destruct (Nat.leb_spec p j') as [H|H].
    + destruct (Nat.ltb_spec (j' + 1) p); [lia|]. destruct (Nat.eqb_spec (j' + 1) p); [lia|]. replace (j' + 1 - 1) with j' by lia. exact E.
    + destruct (Nat.ltb_spec j' p); [exact E|lia].
Qed.
Lemma move_perm l i p w : nth_error l i = Some w -> Permutation (insert_at p w (delete_at i l)) l.
Proof.
  intros Hi. unfold insert_at. eapply Permutation_trans; [apply Permutation_sym, Permutation_middle|]. rewrite firstn_skipn.
  unfold delete_at. apply nth_error_split in Hi as (l1 & l2 & -> & <-). rewrite firstn_app_exact by reflexivity.
  replace (skipn (S (length l1)) (l1 ++ w :: l2)) with l2; [apply Permutation_middle|].
  change (l1 ++ w :: l2) with (l1 ++ [w] ++ l2). rewrite app_assoc. symmetry. apply skipn_app_exact. rewrite app_length. simpl. lia.
Qed.

Section MutateProofs.
  Variable selected : nat -> nat -> bool.
  Variable shuffle : nat -> list nat -> list nat.
  Hypothesis Hshuffle : forall k l, Permutation (shuffle k l) l.
  Variable pick : nat -> nat -> list nat -> nat.
  Hypothesis Hpick : forall k s l, l <> [] -> In (pick k s l) l.
  Variable parents children : nat -> list nat.

  Definition edge (R : nat -> nat -> Prop) (l : list nat) :=
    forall x y, R x y -> In x l -> In y l -> In x (parents y) /\ In y (children x).
  Lemma mutate_step_spec k s order i w indexes order' indexes' : NoDup order ->
    nth_error order i = Some w -> 1 <= i -> i <= length order - 2 -> 2 <= length order ->
    mutate_step pick parents children k s order i w indexes = (order', indexes') ->
    Permutation order' order /\
    (forall R, edge R order -> topological R order -> topological R order') /\
    (exists f, indexes' = map f indexes /\ f 0 = 0 /\ f (length order - 1) = length order - 1 /\
       (forall j x, j <> i -> nth_error order j = Some x -> nth_error order' (f j) = Some x) /\
       (forall j, j <> i -> 1 <= j <= length order - 2 -> 1 <= f j <= length order - 2) /\
       (forall j j', j <> i -> j' <> i -> f j = f j' -> j = j')) .
  Proof.
    intros Hnd Hw Hi1 Hi2 Hlen E. unfold mutate_step in E.
    assert (Hip : 1 <= max_parent parents order i w <= i).
    { unfold max_parent. split; [lia|].
      assert (H : fold_left Nat.max (positions (fun x => mem x (parents w)) (firstn i order)) 0 <= i - 1).
      { apply fold_max_bound; [lia|]. intros x H. apply positions_in in H as (y & Hy & _).
        assert (x < length (firstn i order)) by (apply nth_error_Some; congruence). rewrite firstn_length in H. lia. }
      lia. }
    assert (Hic : i <= min_child children order i w <= length order - 2).
    { unfold min_child. destruct (fold_min_le (positions (fun x => mem x (children w)) (skipn (S i) order)) (length order - 2 - i)) as [H _]. lia. }
    set (ip := max_parent parents order i w) in *. set (ic := min_child children order i w) in *.
    destruct (Nat.eqb_spec ip ic) as [Eq|Nq].
    { injection E as <- <-. split; [apply Permutation_refl|]. split; [auto|]. exists (fun j => j).
      rewrite map_id. repeat split; auto; lia. }
    injection E as <- <-. set (ch := seq ip (i - ip) ++ seq (S i) (ic - i)). set (p := pick k s ch).
    assert (Hp : In p ch).
    { apply Hpick. unfold ch. intros H. apply app_eq_nil in H as [H1 H2].
      assert (L1 := f_equal (@length nat) H1). assert (L2 := f_equal (@length nat) H2). rewrite seq_length in L1, L2. simpl in L1, L2. lia. }
    assert (Hp' : ip <= p <= ic /\ p <> i).
    { unfold ch in Hp. apply in_app_iff in Hp as [H|H]; apply in_seq in H; lia. }
    assert (Hpl : p < length order) by lia.
    split; [apply move_perm; exact Hw|]. split.
    - intros R He T.
      assert (Hnd' : NoDup (insert_at p w (delete_at i order))) by (eapply Permutation_NoDup; [apply Permutation_sym, move_perm; exact Hw|exact Hnd]).
      intros x y HR Hx Hy. apply (Permutation_in _ (move_perm order i p w Hw)) in Hx, Hy.
      destruct (He x y HR Hx Hy) as [Hpar Hchi].
      apply In_nth_error in Hx as [jx Hjx]. apply In_nth_error in Hy as [jy Hjy].
      assert (Hlt := proj1 (topological_nth R order Hnd) T jx jy x y Hjx Hjy HR).
      apply before_nth. exists (shift i p jx), (shift i p jy). split; [|split; apply move_nth; assumption].
      unfold shift. destruct (Nat.eqb_spec jx i) as [->|Nx].
      + (* the moved work comes before y *)
        destruct (Nat.eqb_spec jy i); [lia|]. destruct (Nat.ltb_spec i jy); [|lia]. cbv zeta.
        assert (x = w) by congruence. subst x.
        assert (Hmin : ic <= jy - 1).
        { unfold ic, min_child. destruct (fold_min_le (positions (fun x => mem x (children w)) (skipn (S i) order)) (length order - 2 - i)) as [_ Hm].
          assert (Hin : In (jy - S i) (positions (fun x => mem x (children w)) (skipn (S i) order))).
          { apply positions_in. exists y. split; [|apply mem_in; exact Hchi].
            rewrite <- (firstn_skipn (S i) order), nth_error_app2 in Hjy by (rewrite firstn_length_le; lia).
            rewrite firstn_length_le in Hjy by lia. exact Hjy. }
          specialize (Hm _ Hin). lia. }
        destruct (Nat.leb_spec p (jy - 1)); lia.
      + destruct (Nat.eqb_spec jy i) as [->|Ny].
        * destruct (Nat.ltb_spec i jx); [lia|]. cbv zeta. assert (y = w) by congruence. subst y.
          assert (Hmax : S jx <= ip).
          { unfold ip, max_parent. apply le_n_S. destruct (fold_max_le (positions (fun x => mem x (parents w)) (firstn i order)) 0) as [_ Hm]. apply Hm.
            apply positions_in. exists x. split; [|apply mem_in; exact Hpar].
            rewrite <- (firstn_skipn i order), nth_error_app1 in Hjx by (rewrite firstn_length_le; lia). exact Hjx. }
          destruct (Nat.leb_spec p jx); lia.
        * cbv zeta. destruct (Nat.ltb_spec i jx), (Nat.ltb_spec i jy); destruct (Nat.leb_spec p (jx - 1)), (Nat.leb_spec p (jy - 1)), (Nat.leb_spec p jx), (Nat.leb_spec p jy); lia.
    - exists (fun j => let j' := if i <? j then j - 1 else j in if p <=? j' then j' + 1 else j').
      split; [rewrite map_map; reflexivity|]. split; [|split; [|split; [|split]]].
      + cbv zeta. destruct (Nat.ltb_spec i 0); [lia|]. destruct (Nat.leb_spec p 0); lia.
      + cbv zeta. destruct (Nat.ltb_spec i (length order - 1)); [|lia]. destruct (Nat.leb_spec p (length order - 1 - 1)); lia.
      + intros j x Hne Hj. assert (H := move_nth order i p w j x Hw Hpl Hj). unfold shift in H.
        destruct (Nat.eqb_spec j i); [contradiction|exact H].
      + intros j Hne Hj. cbv zeta. destruct (Nat.ltb_spec i j); match goal with |- context [?a <=? ?b] => destruct (Nat.leb_spec a b) end; lia.
      + intros j j' Hne Hne'. cbv zeta. destruct (Nat.ltb_spec i j), (Nat.ltb_spec i j');
          destruct (Nat.leb_spec p (j - 1)), (Nat.leb_spec p (j' - 1)), (Nat.leb_spec p j), (Nat.leb_spec p j'); lia.
  Qed.

  Lemma mutate_steps_spec k : forall works s order indexes, NoDup order -> 2 <= length order ->
    Forall2 (fun i w => nth_error order i = Some w /\ 1 <= i <= length order - 2) indexes works -> NoDup indexes ->
    exists order', mutate_steps pick parents children k s order works indexes = Some order' /\ Permutation order' order /\
      nth_error order' 0 = nth_error order 0 /\ nth_error order' (length order - 1) = nth_error order (length order - 1) /\
      forall R, edge R order -> topological R order -> topological R order'.
  Proof.
    induction works as [|w ws IH]; intros s order indexes Hnd Hlen F Hni; cbn [mutate_steps].
    { exists order. auto. }
    inversion F as [|i ? is ? [Hw Hi] F']; subst.
    destruct (mutate_step pick parents children k s order i w is) as [order1 is1] eqn:E.
    destruct (mutate_step_spec k s order i w is order1 is1 Hnd Hw ltac:(lia) ltac:(lia) Hlen E) as (P1 & T1 & f & -> & Hf0 & Hfl & Hf1 & Hf2 & Hf3).
    inversion Hni as [|? ? Hii Hni']; subst.
    assert (Hl1 : length order1 = length order) by (apply Permutation_length; exact P1).
    destruct (IH (S s) order1 (map f is)) as (order2 & E2 & P2 & Z2 & L2 & T2).
    - eapply Permutation_NoDup; [apply Permutation_sym; exact P1|exact Hnd].
    - lia.
    - rewrite Hl1. clear -F' Hii Hf1 Hf2. induction F' as [|j w' is' ws' [Hj Hr] F' IH']; [constructor|]. simpl in Hii. simpl. constructor.
      + split; [apply Hf1; [tauto|exact Hj]|apply Hf2; [tauto|exact Hr]].
      + apply IH'. tauto.
    - clear -Hni' Hii Hf3. induction is as [|j is IH']; [constructor|]. simpl in Hii. inversion Hni'; subst. simpl. constructor.
      + intros H. apply in_map_iff in H as (j' & E & Hj'). apply Hf3 in E; [subst; contradiction|intros ->; tauto|intros ->; tauto].
      + apply IH'; tauto.
    - exists order2. rewrite Hl1 in *. split; [exact E2|]. split; [eapply Permutation_trans; eauto|]. split; [|split].
      + rewrite Z2. destruct (nth_error order 0) as [x|] eqn:Ex; [|exfalso; apply nth_error_None in Ex; lia].
        rewrite <- Hf0. apply Hf1; [lia|exact Ex].
      + rewrite L2. destruct (nth_error order (length order - 1)) as [x|] eqn:Ex; [|exfalso; apply nth_error_None in Ex; lia].
        rewrite <- Hfl at 1. apply Hf1; [lia|exact Ex].
      + intros R He T. apply T2; [|apply T1; assumption]. intros x y HR Hx Hy. apply He; [exact HR|eapply Permutation_in; eauto ..].
  Qed.
  Lemma mutate_core_spec k order : NoDup order -> exists order', mutate_core selected shuffle pick parents children k order = Some order' /\
      Permutation order' order /\
      nth_error order' 0 = nth_error order 0 /\ nth_error order' (length order - 1) = nth_error order (length order - 1) /\
      forall R, edge R order -> topological R order -> topological R order'.
  Proof.
    intros Hnd. unfold mutate_core. set (base := map S (filter (selected k) (seq 0 (length order - 2)))).
    assert (Hb : forall i, In i (shuffle k base) -> 1 <= i <= length order - 2).
    { intros i H. apply (Permutation_in _ (Hshuffle k base)) in H. unfold base in H. apply in_map_iff in H as (j & <- & H).
      apply filter_In in H as [H _]. apply in_seq in H. lia. }
    assert (Hnb : NoDup (shuffle k base)).
    { eapply Permutation_NoDup; [apply Permutation_sym, Hshuffle|]. unfold base. apply FinFun.Injective_map_NoDup; [intros a b; lia|].
      apply NoDup_filter, seq_NoDup. }
    destruct (Nat.lt_ge_cases (length order) 2) as [Hlt|Hge].
    - assert (E : shuffle k base = []) by (destruct (shuffle k base) as [|i l]; [reflexivity|]; specialize (Hb i (or_introl eq_refl)); lia).
      rewrite E. cbn [map mutate_steps]. exists order. auto.
    - apply mutate_steps_spec; auto. clear -Hb. induction (shuffle k base) as [|i l IH]; [constructor|]. cbn [map]. constructor.
      + assert (H := Hb i (or_introl eq_refl)). split; [apply nth_error_nth'; lia|exact H].
      + apply IH. intros j Hj. apply Hb. right. exact Hj.
  Qed.

  Lemma mutate_groups_spec prio : forall n i order cur start, i + n = length order -> NoDup order -> start <= i ->
    (forall j, start <= j < i -> prio (nth j order 0) = cur) -> (i = 0 -> cur = prio (nth 0 order 0)) ->
    exists order', mutate_groups selected shuffle pick parents children prio (seq i n) order cur start = Some order' /\
      Permutation order' order /\ map prio order' = map prio order /\
      forall R, edge R order -> topological R order -> topological R order'.
  Proof.
    induction n as [|n IH]; intros i order cur start Hn Hnd Hs Hc H0; cbn [seq mutate_groups].
    { exists order. auto. }
    destruct (Z.eqb_spec (prio (nth i order 0)) cur) as [Ep|Ep].
    { apply IH; auto; try lia. intros j Hj. destruct (Nat.eq_dec j i) as [->|Hne]; [exact Ep|apply Hc; lia]. }
    assert (Hi : 1 <= i) by (destruct i; [rewrite H0 in Ep; congruence|lia]).
    set (a := firstn start order). set (sl := skipn start (firstn i order)). set (b := skipn i order).
    assert (E : order = a ++ sl ++ b).
    { unfold a, sl, b. rewrite <- (firstn_skipn i order) at 1. rewrite app_assoc. f_equal.
      rewrite <- (firstn_skipn start (firstn i order)) at 1. f_equal. rewrite firstn_firstn. f_equal. lia. }
    assert (Hla : length a = start) by (unfold a; apply firstn_length_le; lia).
    assert (Hls : length sl = i - start) by (unfold sl; rewrite skipn_length, firstn_length_le; lia).
    assert (Hns : NoDup sl) by (rewrite E in Hnd; apply nodup_app_r, nodup_app_l in Hnd; exact Hnd).
    destruct (mutate_core_spec i sl Hns) as (part & Em & Pm & _ & _ & Tm). fold sl. rewrite Em.
    assert (Q : Permutation (a ++ part ++ b) order) by (rewrite E; apply Permutation_app_head, Permutation_app_tail; exact Pm).
    assert (Hlp : length part = i - start) by (rewrite (Permutation_length Pm); exact Hls).
    assert (Hconst : forall x, In x sl -> prio x = cur).
    { intros x Hx. apply In_nth_error in Hx as [j Hj]. assert (j < length sl) by (apply nth_error_Some; congruence).
      rewrite <- (Hc (start + j)) by lia. f_equal. symmetry. apply nth_error_nth. rewrite E, nth_error_app2 by lia. rewrite nth_error_app1 by lia.
      rewrite Hla. replace (start + j - start) with j by lia. exact Hj. }
    assert (Hmp : map prio part = map prio sl).
    { assert (G : forall l, (forall x, In x l -> prio x = cur) -> map prio l = repeat cur (length l)).
      { induction l as [|x l IHl]; intros H; [reflexivity|]. simpl. rewrite H by (left; reflexivity). f_equal. apply IHl. intros; apply H; right; assumption. }
      rewrite (G sl Hconst), (G part); [congruence|]. intros x Hx. apply Hconst. eapply Permutation_in; eauto. }
    assert (Hnth : nth i (a ++ part ++ b) 0 = nth i order 0).
    { rewrite E. rewrite !app_assoc. rewrite !app_nth2; rewrite ?app_length, ?Hla, ?Hlp, ?Hls; try lia. }
    destruct (IH (S i) (a ++ part ++ b) (prio (nth i order 0)) i) as (order' & Eo & Po & Mo & To).
    - rewrite (Permutation_length Q). lia.
    - eapply Permutation_NoDup; [apply Permutation_sym; exact Q|exact Hnd].
    - lia.
    - intros j Hj. assert (j = i) by lia. subst j. rewrite Hnth. reflexivity.
    - lia.
    - exists order'. split; [exact Eo|]. split; [eapply Permutation_trans; eauto|]. split.
      + rewrite Mo. rewrite (f_equal (map prio) E), !map_app, Hmp. reflexivity.
      + intros R He T. apply To.
        * intros x y HR Hx Hy. apply He; [exact HR|eapply Permutation_in; eauto ..].
        * rewrite E in T, Hnd. apply (topological_replace R a sl part b Hnd T Pm). apply Tm; [|apply (topological_part R a sl b); assumption].
          intros x y HR Hx Hy. apply He; [exact HR|rewrite E, !in_app_iff; tauto ..].
  Qed.
End MutateProofs.
