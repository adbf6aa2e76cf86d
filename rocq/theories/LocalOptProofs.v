(** Lemmas about the local optimizers. *)
From Coq Require Import ZArith List Bool Arith Lia Permutation.
From Verif Require Import TimeModel MomentumModel MomentumSpec MomentumHistory JITModel JITHistory JITProofs GraphModel ScheduleModel ScheduleSpec
  TeamProofs GeneticProofs JitScheduleInv LocalOptModel.
Import ListNotations.

Lemma has_in l n : has l n = true <-> In n l.
Proof. unfold has. rewrite existsb_exists. split; [intros (x & H & E); apply Nat.eqb_eq in E; subst; exact H|intros H; exists n; split; [exact H|apply Nat.eqb_refl]]. Qed.

Lemma nth_slice {A} (l : list A) start stop k : nth_error (slice l start stop) k = if k <? stop - start then nth_error l (start + k) else None.
Proof.
  unfold slice. generalize (stop - start) as m. intros m. revert k. revert l.
  assert (Hf : forall (l : list A) k, nth_error (firstn m l) k = if k <? m then nth_error l k else None).
  { induction m as [|m IH]; intros l k; simpl; [destruct k; reflexivity|].
    destruct l as [|x l]; [destruct k; simpl; [reflexivity|destruct (S k <? S m); reflexivity]|].
    destruct k as [|k]; [reflexivity|]. simpl. rewrite IH. reflexivity. }
  intros l k. rewrite Hf. clear Hf. destruct (k <? m); [|reflexivity].
  revert l. induction start as [|s IH]; intros l; [reflexivity|]. destruct l as [|x l]; [destruct k; reflexivity|]. simpl. apply IH.
Qed.
Lemma in_slice {A} (l : list A) start stop x : In x (slice l start stop) <-> exists k, start <= k < stop /\ nth_error l k = Some x.
Proof.
  split.
  - intros H. apply In_nth_error in H as (k & H). rewrite nth_slice in H. destruct (Nat.ltb_spec k (stop - start)); [|discriminate].
    exists (start + k). split; [lia|exact H].
  - intros (k & Hk & H). apply nth_error_In with (n := k - start). rewrite nth_slice. destruct (Nat.ltb_spec (k - start) (stop - start)); [|lia].
    replace (start + (k - start)) with k by lia. exact H.
Qed.

Lemma ind_get_combine : forall (l : list nat) b m i n, NoDup l -> nth_error l i = Some n -> i < m -> ind_get (combine l (seq b m)) n = Some (b + i).
Proof.
  induction l as [|x l IH]; intros b m i n Hn Hi Hm; [destruct i; discriminate|]. inversion Hn; subst.
  destruct m as [|m]; [lia|]. simpl. destruct i as [|i]; simpl in Hi.
  - injection Hi as ->. rewrite Nat.eqb_refl. f_equal. lia.
  - destruct (Nat.eqb_spec x n) as [->|Ne]; [exfalso; apply nth_error_In in Hi; tauto|].
    rewrite (IH (S b) m i n); [f_equal; lia|assumption|assumption|lia].
Qed.
Lemma ind_get_some : forall (l : list nat) b m n k, ind_get (combine l (seq b m)) n = Some k -> b <= k < b + m /\ nth_error l (k - b) = Some n.
Proof.
  induction l as [|x l IH]; intros b m n k H; [discriminate|]. destruct m as [|m]; [discriminate|]. simpl in H.
  destruct (Nat.eqb_spec x n) as [->|Ne].
  - injection H as <-. split; [lia|]. rewrite Nat.sub_diag. reflexivity.
  - apply IH in H as [H1 H2]. split; [lia|]. replace (k - b) with (S (k - S b)) by lia. exact H2.
Qed.

Lemma slice_nodup {A} (l : list A) a b : NoDup l -> NoDup (slice l a b).
Proof.
  intros H. unfold slice.
  assert (Hs : NoDup (skipn a l)).
  { rewrite <- (firstn_skipn a l) in H. revert H. generalize (skipn a l) as r. induction (firstn a l); intros r H; [exact H|]. inversion H; auto. }
  assert (Hf : forall (m : list A) k, NoDup m -> NoDup (firstn k m)).
  { clear. induction m as [|x m IH]; intros k H; destruct k; simpl; try constructor; inversion H; subst.
    - intros Hi. apply H2. rewrite <- (firstn_skipn k m). apply in_app_iff. auto.
    - auto. }
  apply Hf, Hs.
Qed.

(** What node2ind holds: every node of the area with its place. *)
Definition placed (start stop : nat) (order : list nat) (d : indices) : Prop :=
  forall k, start <= k < stop -> exists n, nth_error order k = Some n /\ ind_get d n = Some k.
Lemma area_placed start stop order : NoDup order -> stop <= length order -> placed start stop order (area_indices order start stop).
Proof.
  intros Hn Hl k Hk. destruct (nth_error order k) as [n|] eqn:E; [|apply nth_error_None in E; lia].
  exists n. split; [reflexivity|]. unfold area_indices.
  rewrite (ind_get_combine _ start (stop - start) (k - start) n).
  - f_equal. lia.
  - apply slice_nodup. exact Hn.
  - rewrite nth_slice. destruct (Nat.ltb_spec (k - start) (stop - start)); [|lia]. replace (start + (k - start)) with k by lia. exact E.
  - lia.
Qed.
Lemma area_get start stop order n k : ind_get (area_indices order start stop) n = Some k -> start <= k < stop /\ nth_error order k = Some n.
Proof.
  unfold area_indices. intros H. apply ind_get_some in H as [H1 H2]. rewrite nth_slice in H2.
  destruct (Nat.ltb_spec (k - start) (stop - start)); [|discriminate]. replace (start + (k - start)) with k in H2 by lia. split; [lia|exact H2].
Qed.

(** ** Permutation *)
Lemma set_nth_length {A} (x : A) : forall l i, length (set_nth l i x) = length l.
Proof. induction l as [|y l IH]; intros [|i]; simpl; auto. Qed.
Lemma nth_set_nth {A} (x : A) : forall l i k, i < length l -> nth_error (set_nth l i x) k = if k =? i then Some x else nth_error l k.
Proof.
  induction l as [|y l IH]; intros [|i] [|k] H; simpl in *; try reflexivity; try lia.
  rewrite IH by lia. destruct (Nat.eqb_spec k i); reflexivity.
Qed.
Lemma set_nth_perm {A} : forall (l : list A) i x y, nth_error l i = Some y -> Permutation (x :: l) (y :: set_nth l i x).
Proof.
  induction l as [|z l IH]; intros [|i] x y H; simpl in H; try discriminate.
  - injection H as ->. simpl. apply perm_swap.
  - simpl. eapply Permutation_trans; [apply perm_swap|]. eapply Permutation_trans; [apply perm_skip, IH; eauto|]. apply perm_swap.
Qed.
Lemma swap_perm {A} (l : list A) i j x y : nth_error l i = Some x -> nth_error l j = Some y -> i <> j ->
  Permutation l (set_nth (set_nth l i y) j x).
Proof.
  intros Hi Hj Hn. assert (H1 := set_nth_perm l i y x Hi).
  assert (Hj' : nth_error (set_nth l i y) j = Some y).
  { rewrite nth_set_nth by (apply nth_error_Some; congruence). destruct (Nat.eqb_spec j i); [congruence|exact Hj]. }
  assert (H2 := set_nth_perm (set_nth l i y) j x y Hj').
  apply (Permutation_cons_inv (a := y)). eapply Permutation_trans; [exact H1|exact H2].
Qed.

Lemma swap_candidates_total g node i d processed : forall cs, (forall c, In c cs -> ind_get d c <> None) ->
  exists l, swap_candidates g node i d processed cs = Some l /\ incl l cs.
Proof.
  induction cs as [|c cs IH]; intros H; simpl; [exists []; split; [reflexivity|intros ? []]|].
  destruct IH as (l & -> & Hl); [intros x Hx; apply H; right; exact Hx|].
  unfold candidate_accepted. destruct (has (children g node) c || has processed c).
  - exists l. split; [reflexivity|]. apply incl_tl, Hl.
  - destruct (ind_get d c) as [ci|] eqn:E; [|exfalso; eapply H; [left; reflexivity|exact E]].
    destruct (_ && _); eexists; (split; [reflexivity|]); [|apply incl_tl, Hl].
    intros x [->|Hx]; [left; reflexivity|right; apply Hl, Hx].
Qed.

Lemma swap_step_perm g start stop i order d processed : NoDup order -> placed start stop order d -> start <= i < stop ->
  exists o d' p', swap_step g start i (order, d, processed) = Some (o, d', p') /\ Permutation order o /\ placed start stop o d'.
Proof.
  intros Hn Hp Hi. unfold swap_step. destruct (Hp i Hi) as (node & E & Ed). rewrite E.
  destruct (has processed node); [do 3 eexists; split; [reflexivity|]; auto|].
  destruct (swap_candidates_total g node i d processed (slice order start i)) as (l & -> & Hl).
  { intros c Hc. apply in_slice in Hc as (k & Hk & Hc). destruct (Hp k ltac:(lia)) as (c' & E1 & E2). congruence. }
  destruct l as [|c l]; [do 3 eexists; split; [reflexivity|]; auto|].
  assert (Hc : In c (slice order start i)) by (apply Hl; left; reflexivity).
  apply in_slice in Hc as (j & Hj & Hc). destruct (Hp j ltac:(lia)) as (c' & E1 & E2).
  assert (c' = c) by congruence. subst c'. rewrite E2, Hc.
  do 3 eexists. split; [reflexivity|]. split; [apply swap_perm; [exact E|exact Hc|lia]|].
  assert (Li : i < length order) by (apply nth_error_Some; congruence).
  assert (Lj : j < length order) by (apply nth_error_Some; congruence).
  intros k Hk. rewrite nth_set_nth by (rewrite set_nth_length; exact Lj). rewrite nth_set_nth by exact Li.
  assert (Inj : forall a b n, nth_error order a = Some n -> nth_error order b = Some n -> a = b).
  { intros a b n Ha Hb. apply (proj1 (NoDup_nth_error order) Hn); [apply nth_error_Some; congruence|congruence]. }
  destruct (Nat.eqb_spec k j) as [->|Nj].
  - exists node. split; [reflexivity|]. simpl. rewrite Nat.eqb_refl. reflexivity.
  - destruct (Nat.eqb_spec k i) as [->|Ni].
    + exists c. split; [reflexivity|]. simpl. destruct (Nat.eqb_spec node c) as [->|N]; [exfalso; assert (i = j) by (eapply Inj; eauto); lia|].
      rewrite Nat.eqb_refl. reflexivity.
    + destruct (Hp k Hk) as (n & F1 & F2). exists n. split; [exact F1|]. simpl.
      destruct (Nat.eqb_spec node n) as [->|N1]; [exfalso; apply Ni; eapply Inj; eauto|].
      destruct (Nat.eqb_spec c n) as [->|N2]; [exfalso; apply Nj; eapply Inj; eauto|]. exact F2.
Qed.

Lemma swap_loop_perm g start stop : forall n order d processed, NoDup order -> placed start stop order d -> n <= stop - start ->
  exists o d' p', swap_loop g start n (order, d, processed) = Some (o, d', p') /\ Permutation order o.
Proof.
  induction n as [|n IH]; intros order d processed Hn Hp Hl; [do 3 eexists; split; [reflexivity|apply Permutation_refl]|].
  cbn [swap_loop]. destruct (swap_step_perm g start stop (start + n) order d processed Hn Hp ltac:(lia)) as (o & d' & p' & -> & H1 & H2).
  destruct (IH o d' p') as (o2 & d2 & p2 & H3 & H4); [eapply Permutation_NoDup; eauto|exact H2|lia|].
  exists o2, d2, p2. split; [exact H3|]. eapply Permutation_trans; eauto.
Qed.
Lemma swap_optimize_perm g start stop order : NoDup order -> stop <= length order ->
  exists o, swap_optimize g start stop order = Some o /\ Permutation order o.
Proof.
  intros Hn Hl. unfold swap_optimize.
  destruct (swap_loop_perm g start stop (stop - start) order (area_indices order start stop) [] Hn (area_placed _ _ _ Hn Hl) (le_n _)) as (o & d & p & -> & H).
  eauto.
Qed.

(** ** Orders of projects *)
(** Only the first work has no predecessors, only the last one has no successors, and
    predecessors come first. *)
Definition project_order (g : graph) (order : list nat) : Prop :=
  NoDup order /\
  (forall a b, In a order -> In b order -> In a (parents g b) -> comes_before order a b) /\
  (forall first rest n, order = first :: rest -> In n rest -> parents g n <> []) /\
  (forall last front n, order = front ++ [last] -> In n front -> children g n <> []).

Lemma not_accepted g order start stop i j node c processed : project_order g order -> stop <= length order ->
  start <= i < stop -> nth_error order i = Some node -> start <= j < i -> nth_error order j = Some c -> (j = 0 -> i + 1 <> length order) ->
  candidate_accepted g node i (area_indices order start stop) processed c = Some false.
Proof.
  intros (Hn & Ht & Hf & Hc) Hl Hi Ei Hj Ej Hx. unfold candidate_accepted.
  destruct (has (children g node) c || has processed c); [reflexivity|].
  destruct (area_placed start stop order Hn Hl j ltac:(lia)) as (c' & E1 & E2). assert (c' = c) by congruence. subst c'. rewrite E2.
  f_equal. destruct j as [|j].
  - apply andb_false_iff. left. apply negb_false_iff. apply existsb_exists.
    assert (Hne : children g node <> []).
    { destruct (@exists_last _ order) as (front & lst & E); [destruct order; [destruct i; discriminate|discriminate]|].
      apply (Hc lst front); [exact E|]. subst order. rewrite app_length in Hx. simpl in Hx.
      assert (i < length (front ++ [lst])) by (apply nth_error_Some; congruence). rewrite app_length in H. simpl in H.
      rewrite nth_error_app1 in Ei by lia. eapply nth_error_In; eauto. }
    destruct (children g node) as [|ch r]; [congruence|]. exists ch. split; [left; reflexivity|]. reflexivity.
  - apply andb_false_iff. right. apply negb_false_iff. apply existsb_exists.
    assert (Hne : parents g c <> []).
    { destruct order as [|x r]; [discriminate|]. apply (Hf x r); [reflexivity|]. simpl in Ej. eapply nth_error_In; eauto. }
    destruct (parents g c) as [|p r] eqn:Ep; [congruence|]. exists p. split; [left; reflexivity|].
    apply Nat.leb_le. unfold ind_or0. destruct (ind_get (area_indices order start stop) p) as [k|] eqn:Ek; [|lia].
    apply area_get in Ek as [K1 K2].
    assert (C : comes_before order p c).
    { apply Ht; [eapply nth_error_In; eauto|eapply nth_error_In; eauto|]. rewrite Ep. left. reflexivity. }
    apply before_nth in C as (a & b & C1 & C2 & C3).
    assert (b = S j) by (apply (proj1 (NoDup_nth_error order) Hn); [apply nth_error_Some; congruence|congruence]).
    assert (a = k) by (apply (proj1 (NoDup_nth_error order) Hn); [apply nth_error_Some; congruence|congruence]). lia.
Qed.

Lemma no_candidates g order start stop i node processed : project_order g order -> stop <= length order -> start <= i < stop ->
  nth_error order i = Some node -> (start = 0 -> i + 1 <> length order) -> forall cs, incl cs (slice order start i) ->
  swap_candidates g node i (area_indices order start stop) processed cs = Some [].
Proof.
  intros Hp Hl Hi Ei Hx. induction cs as [|c cs IH]; intros Hc; [reflexivity|]. simpl.
  rewrite IH by (intros x H; apply Hc; right; exact H).
  assert (H : In c (slice order start i)) by (apply Hc; left; reflexivity). apply in_slice in H as (j & Hj & Ej).
  rewrite (not_accepted g order start stop i j node c processed Hp Hl Hi Ei Hj Ej); [reflexivity|]. intros ->. apply Hx. lia.
Qed.
Lemma only_first g order start stop i node processed : project_order g order -> stop <= length order -> start <= i < stop ->
  nth_error order i = Some node -> forall cs, incl cs (slice order start i) ->
  forall l, swap_candidates g node i (area_indices order start stop) processed cs = Some l -> forall c, In c l -> nth_error order 0 = Some c.
Proof.
  intros Hp Hl Hi Ei. induction cs as [|c cs IH]; intros Hc l; simpl; [intros [= <-] ? []|].
  assert (H : In c (slice order start i)) by (apply Hc; left; reflexivity). apply in_slice in H as (j & Hj & Ej).
  destruct (Nat.eq_dec j 0) as [->|N0].
  - destruct (candidate_accepted _ _ _ _ _ _) as [b|]; [|discriminate].
    destruct (swap_candidates g node i _ processed cs) as [l'|] eqn:E; [|discriminate]. intros [= <-] x Hx.
    assert (IH' := IH ltac:(intros y H; apply Hc; right; exact H) l' eq_refl).
    destruct b; [destruct Hx as [<-|Hx]; [exact Ej|]|]; apply IH'; exact Hx.
  - rewrite (not_accepted g order start stop i j node c processed Hp Hl Hi Ei Hj Ej) by lia.
    destruct (swap_candidates g node i _ processed cs) as [l'|] eqn:E; [|discriminate]. intros [= <-]. apply IH; [|reflexivity].
    intros y H; apply Hc; right; exact H.
Qed.

Lemma swap_loop_same g start stop order : project_order g order -> stop <= length order -> (start = 0 -> stop <> length order) ->
  forall n processed, n <= stop - start ->
  exists p', swap_loop g start n (order, area_indices order start stop, processed) = Some (order, area_indices order start stop, p').
Proof.
  intros Hp Hl Hx. induction n as [|n IH]; intros processed Hn; [eexists; reflexivity|]. cbn [swap_loop].
  unfold swap_step. destruct (nth_error order (start + n)) as [node|] eqn:E; [|apply nth_error_None in E; lia].
  destruct (has processed node); [apply IH; lia|].
  rewrite (no_candidates g order start stop (start + n) node processed Hp Hl) by (try lia; try exact E; apply incl_refl).
  apply IH. lia.
Qed.
Lemma swap_optimize_same g start stop order : project_order g order -> stop <= length order -> (start = 0 -> stop <> length order) ->
  swap_optimize g start stop order = Some order.
Proof.
  intros Hp Hl Hx. unfold swap_optimize. destruct (swap_loop_same g start stop order Hp Hl Hx (stop - start) [] (le_n _)) as (p & ->). reflexivity.
Qed.
Lemma optimize_order_same g order : project_order g order -> forall areas,
  Forall (fun a => snd a <= length order /\ a <> (0, length order)) areas -> optimize_order g areas order = Some order.
Proof.
  intros Hp. induction areas as [|[a b] areas IH]; intros H; [reflexivity|]. inversion H as [|? ? [H1 H2] H3]; subst. simpl in *.
  rewrite (swap_optimize_same g a b order Hp H1); [apply IH; exact H3|]. intros -> ->. apply H2. reflexivity.
Qed.

(** ** The schedule optimizer *)
Lemma share_loop_ok g sd order start stop : project_order g order -> stop <= length order ->
  (forall n, In n order -> sd_get sd n <> None) ->
  (forall first w, nth_error order 0 = Some first -> sd_get sd first = Some w -> sw_team w = []) ->
  forall n, n <= stop - start -> share_loop g sd order (area_indices order start stop) start n = Some tt.
Proof.
  intros Hp Hl Hs Hf. induction n as [|n IH]; intros Hn; [reflexivity|]. cbn [share_loop].
  destruct (nth_error order (start + n)) as [node|] eqn:E; [|apply nth_error_None in E; lia].
  destruct (swap_candidates_total g node (start + n) (area_indices order start stop) [] (slice order start (start + n))) as (l & El & Hi).
  { intros c Hc. apply in_slice in Hc as (k & Hk & Hc). destruct (area_placed start stop order (proj1 Hp) Hl k ltac:(lia)) as (c' & E1 & E2). congruence. }
  rewrite El. destruct (sd_get sd node) as [w|] eqn:Ew; [|exfalso; eapply Hs; [eapply nth_error_In; exact E|exact Ew]].
  destruct l as [|c l]; simpl; [apply IH; lia|].
  assert (Hc := only_first g order start stop (start + n) node [] Hp Hl ltac:(lia) E _ (incl_refl _) _ El c (or_introl eq_refl)).
  destruct (sd_get sd c) as [wc|] eqn:Ec; [|exfalso; eapply Hs; [eapply nth_error_In; exact Hc|exact Ec]].
  rewrite (Hf c wc Hc Ec). apply IH; lia.
Qed.

Local Open Scope Z_scope.
Section Recalc.
  Variable g : graph.
  Variable est : nat -> list worker -> Z.
  Variable cs : list contractor.
  Variable spec : nat -> work_spec.
  Variable apt : Z.
  Variable old : sched.
  Definition kept_work (n : nat) : Prop :=
    chain_of g n = Some [n] /\ inseparable_parent g n = None /\
    exists w t, sd_get old n = Some w /\ In (sw_contractor w) (map ct_id cs) /\ sw_team w = to_workers t /\ team_within (pool_of cs) t.
  Lemma recalc_jit : forall nodes sd s, jinv (pool_of cs) s -> (forall n, In n nodes -> kept_work n) ->
    exists sd', recalc jtimeline (jit_schedule g est) cs spec apt old nodes sd s = Some sd' /\
      (forall n, In n nodes -> sd_get sd' n = sd_get old n) /\ (forall n, ~ In n nodes -> sd_get sd' n = sd_get sd n).
  Proof.
    induction nodes as [|n nodes IH]; intros sd s Hs Hk; [exists sd; split; [reflexivity|]; split; [intros ? []|reflexivity]|].
    cbn [recalc]. destruct (Hk n (or_introl eq_refl)) as (C1 & C2 & w & t & W1 & W2 & W3 & W4). rewrite W1.
    rewrite (proj2 (has_in _ _) W2). unfold jit_schedule. rewrite C1, W3.
    assert (Hst : exists st, (match jit_find g est sd s n (to_workers t) (sp_independent (spec n)) apt with Some (st, _) => Some st | None => None end) = Some st).
    { unfold jit_find. destruct sd; [eauto|]. rewrite C1.
      destruct (find_agents_spec (pool_of cs) s (sp_independent (spec n)) t Hs W4 0) as (r & -> & _). eauto. }
    destruct Hst as (st & ->). cbn [jit_place]. rewrite C2.
    destruct (match match sp_time (spec n) with Some a => _ | None => _ end with None => _ | Some _ => _ end) as [tm tr].
    destruct (jit_update_spec (pool_of cs) (sp_independent (spec n)) (tadd (tmax (tadd st 0) (min_start_time g sd n)) tm) 0 t s Hs W4) as (s' & -> & Hs' & _).
    destruct (IH ((n, w) :: (n, SW (tmax (tadd st 0) (min_start_time g sd n)) (tadd (tmax (tadd st 0) (min_start_time g sd n)) tm) (to_workers t) (sw_contractor w)) :: sd) s' Hs')
      as (sd' & E1 & E2 & E3); [intros m Hm; apply Hk; right; exact Hm|].
    exists sd'. split; [exact E1|]. split.
    - intros m [<-|Hm]; [|apply E2, Hm]. destruct (in_dec Nat.eq_dec n nodes) as [Hi|Hi]; [apply E2, Hi|].
      rewrite E3 by exact Hi. cbn [sd_get]. rewrite Nat.eqb_refl. symmetry. exact W1.
    - intros m Hm. simpl in Hm. rewrite E3 by tauto. cbn [sd_get]. destruct (Nat.eqb_spec n m); [tauto|reflexivity].
  Qed.
End Recalc.
