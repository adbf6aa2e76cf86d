(** Proofs about the links found in historical data. *)
From Coq Require Import ZArith QArith Qround List Bool Ascii String Lia Lqa Arith Relations Permutation Sorted.
From Verif Require Import TimeModel MomentumModel GraphModel StableSort ParserModel ParserProofs ParserGraph HistoryModel HistorySpec.
From Verif Require LoopModel LoopTheorems.
Import ListNotations.
Local Open Scope Z_scope.

(** ** The least number without outliers *)
Lemma qle_bool_false x y : Qle_bool x y = false <-> (y < x)%Q.
Proof.
  split.
  - intros H. destruct (Qlt_le_dec y x) as [|C]; [assumption|]. apply Qle_bool_iff in C. congruence.
  - intros H. destruct (Qle_bool x y) eqn:E; [|reflexivity]. apply Qle_bool_iff in E. exfalso. eapply Qlt_not_le; eassumption.
Qed.
Lemma qsum_upper l m : (forall x, In x l -> (x < m)%Q) -> l <> [] -> (qsum l < inject_Z (Z.of_nat (List.length l)) * m)%Q.
Proof.
  induction l as [|x l IH]; intros H Hne; [congruence|]. change (qsum (x :: l)) with (x + qsum l)%Q. cbn [List.length].
  rewrite Nat2Z.inj_succ, <- Z.add_1_l, inject_Z_plus, Qmult_plus_distr_l. assert (Hx := H x (or_introl eq_refl)).
  change (inject_Z 1) with 1%Q. rewrite Qmult_1_l.
  destruct l as [|y l].
  - change (qsum []) with 0%Q. change (inject_Z (Z.of_nat (List.length []))) with 0%Q. rewrite Qmult_0_l, !Qplus_0_r. exact Hx.
  - assert (IH' := IH (fun z Hz => H z (or_intror Hz)) ltac:(congruence)).
    set (q := (inject_Z (Z.of_nat (List.length (y :: l))) * m)%Q) in *. lra.
Qed.
Lemma exists_above_mean l : l <> [] -> exists x, In x l /\ Qle_bool (mean l) x = true.
Proof.
  intros Hne.
  assert (Hdec : (exists x, In x l /\ Qle_bool (mean l) x = true) \/ (forall x, In x l -> (x < mean l)%Q)).
  { generalize (mean l). intros m. clear Hne. induction l as [|x l IH]; [right; intros x []|].
    destruct (Qle_bool m x) eqn:E; [left; exists x; split; [left; reflexivity|exact E]|].
    destruct IH as [(y & Hy & Ey)|IH]; [left; exists y; split; [right; exact Hy|exact Ey]|].
    right. intros y [<-|Hy]; [apply qle_bool_false, E|auto]. }
  destruct Hdec as [H|H]; [exact H|exfalso].
  assert (C := qsum_upper l (mean l) H Hne). unfold mean in C at 1.
  assert (Hl : (0 < inject_Z (Z.of_nat (List.length l)))%Q).
  { change 0%Q with (inject_Z 0). rewrite <- Zlt_Qlt. destruct l; [congruence|]. cbn. lia. }
  assert (E : (inject_Z (Z.of_nat (List.length l)) * (qsum l / inject_Z (Z.of_nat (List.length l))) == qsum l)%Q).
  { field. intros C'. rewrite C' in Hl. apply Qlt_irrefl in Hl. exact Hl. }
  unfold mean in C. rewrite E in C. apply Qlt_irrefl in C. exact C.
Qed.
Lemma fold_qmin_in r : forall x, In (fold_left qmin r x) (x :: r).
Proof.
  induction r as [|y r IH]; intros x; [left; reflexivity|]. cbn [fold_left]. destruct (IH (qmin x y)) as [E|H].
  - rewrite <- E. unfold qmin. destruct (Qle_bool x y); [left; reflexivity|right; left; reflexivity].
  - right. right. exact H.
Qed.
Lemma find_min_ok l : l <> [] -> exists x, In x l /\ find_min_without_outliers l = Ok (round2 x).
Proof.
  intros Hne. unfold find_min_without_outliers. destruct (exists_above_mean l Hne) as (x & Hx & E).
  assert (Hf : In x (filter (inlier l) l)) by (apply filter_In; split; [exact Hx|]; unfold inlier; rewrite E; reflexivity).
  destruct (filter (inlier l) l) as [|y r] eqn:Ef; [destruct Hf|]. exists (fold_left qmin r y). split; [|reflexivity].
  assert (H := fold_qmin_in r y). rewrite <- Ef in H. apply filter_In in H. tauto.
Qed.
Lemma round2_unit x : (0 <= x <= 1)%Q -> (0 <= round2 x <= 1)%Q.
Proof.
  intros [H0 H1]. destruct x as [n d]. unfold Qle in *. unfold round2. cbn [Qnum Qden] in *.
  assert (Hd : 0 < Zpos d) by lia. assert (Hn : 0 <= n <= Zpos d) by lia. clear H0 H1.
  assert (Hr : 0 <= round_div (100 * n) (Zpos d) <= 100).
  { unfold round_div. assert (E := Z.div_mod (100 * n) (Zpos d) ltac:(lia)).
    assert (B := Z.mod_pos_bound (100 * n) (Zpos d) Hd). set (q := 100 * n / Zpos d) in *. set (r := (100 * n) mod Zpos d) in *.
    assert (0 <= q <= 100) by nia.
    destruct (Z.ltb_spec (2 * r) (Zpos d)); [lia|].
    assert (q < 100) by nia. destruct (Z.ltb_spec (Zpos d) (2 * r)); [lia|]. destruct (Z.even q); lia. }
  lia.
Qed.

(** ** Counters and lists *)
Definition shares (l : list Q) : Prop := forall x, In x l -> (0 <= x <= 1)%Q.
Definition coherent (s : stats) : Prop :=
  0 <= fs12 s /\ 0 <= fs21 s /\
  ss12 s = Z.of_nat (List.length (ss12_lags s)) /\ ss21 s = Z.of_nat (List.length (ss21_lags s)) /\
  ffs12 s = Z.of_nat (List.length (ffs12_lags s)) /\ ffs21 s = Z.of_nat (List.length (ffs21_lags s)) /\
  shares (ss12_lags s) /\ shares (ss21_lags s) /\ shares (ffs12_lags s) /\ shares (ffs21_lags s).
Lemma shares_nil : shares [].
Proof. intros x []. Qed.
Lemma shares_app a b : shares a -> shares b -> shares (a ++ b).
Proof. intros Ha Hb x Hx. apply in_app_or in Hx as [Hx|Hx]; auto. Qed.
Lemma shares_one x : (0 <= x <= 1)%Q -> shares [x].
Proof. intros H y [<-|[]]. exact H. Qed.
Lemma no_stats_coherent : coherent no_stats.
Proof. unfold coherent, no_stats. cbn. do 6 (split; [lia|]). split; [|split; [|split]]; apply shares_nil. Qed.
Lemma add_coherent a b : coherent a -> coherent b -> coherent (add_stats a b).
Proof.
  intros (A1 & A2 & A3 & A4 & A5 & A6 & A7 & A8 & A9 & A10) (B1 & B2 & B3 & B4 & B5 & B6 & B7 & B8 & B9 & B10).
  unfold coherent, add_stats. cbn [fs12 fs21 ss12 ss21 ffs12 ffs21 ss12_lags ss21_lags ffs12_lags ffs21_lags].
  rewrite !app_length. do 6 (split; [lia|]). split; [|split; [|split]]; apply shares_app; assumption.
Qed.
Lemma ratio_share a b : 1 <= a <= b -> (0 <= ratio a b <= 1)%Q.
Proof. intros H. unfold ratio, Qle. cbn [Qnum Qden]. rewrite Z2Pos.id by lia. lia. Qed.
Lemma gather_coherent s1 f1 s2 f2 : coherent (gather s1 f1 s2 f2).
Proof.
  unfold gather. apply add_coherent.
  - destruct (_ && _); [|apply no_stats_coherent]. unfold coherent. cbn. do 6 (split; [lia|]). split; [|split; [|split]]; try apply shares_nil.
    apply shares_one. unfold Qle. cbn. lia.
  - destruct (Z.leb_spec f2 s1); [|destruct (Z.leb_spec f1 s2); [|destruct (Z.leb_spec s1 s2); [destruct (Z.leb_spec f1 f2)|destruct (Z.leb_spec f2 f1)]]];
      unfold coherent; cbn; do 6 (split; [lia|]); (split; [|split; [|split]]); try apply shares_nil; apply shares_one, ratio_share; unfold delta; lia.
Qed.
Lemma fold_coherent l : forall a, coherent a ->
  coherent (fold_left (fun a o => let '(s1, f1, s2, f2) := o in add_stats a (gather s1 f1 s2 f2)) l a).
Proof.
  induction l as [|[[[s1 f1] s2] f2] l IH]; intros a Ha; [exact Ha|]. cbn [fold_left]. apply IH, add_coherent; [exact Ha|apply gather_coherent].
Qed.
(** The numbers of occurrences counted for either direction. *)
Definition toward (s : stats) : Z := fs12 s + ffs12 s + ss12 s.
Definition backward (s : stats) : Z := fs21 s + ffs21 s + ss21 s.
Lemma toward_add a b : toward (add_stats a b) = toward a + toward b.
Proof. unfold toward, add_stats. cbn. lia. Qed.
Lemma backward_add a b : backward (add_stats a b) = backward a + backward b.
Proof. unfold backward, add_stats. cbn. lia. Qed.
Definition osum (f : Z * Z * Z * Z -> Z) (l : list (Z * Z * Z * Z)) : Z := fold_right Z.add 0 (map f l).
Lemma gather_all_sum (m : stats -> Z) : (forall a b, m (add_stats a b) = m a + m b) -> m no_stats = 0 -> forall l,
  m (gather_all l) = osum (fun o => let '(s1, f1, s2, f2) := o in m (gather s1 f1 s2 f2)) l.
Proof.
  intros Hm H0 l. unfold gather_all.
  assert (G : forall l a, m (fold_left (fun a o => let '(s1, f1, s2, f2) := o in add_stats a (gather s1 f1 s2 f2)) l a)
              = m a + osum (fun o => let '(s1, f1, s2, f2) := o in m (gather s1 f1 s2 f2)) l).
  { clear l. induction l as [|[[[s1 f1] s2] f2] l IH]; intros a; [unfold osum; cbn; lia|]. cbn [fold_left]. rewrite IH, Hm.
    unfold osum. cbn [map fold_right]. lia. }
  rewrite G, H0. lia.
Qed.

(** The decision: it never fails, it is made as soon as there is an occurrence, its lag is a
    share. *)
Lemma decide_ok s : coherent s ->
  (toward s + backward s = 0 -> decide s = Ok None) /\
  (0 < toward s + backward s -> exists t q, decide s = Ok (Some (backward s <=? toward s, t, q)) /\ (0 <= q <= 1)%Q).
Proof.
  intros (H1 & H2 & H3 & H4 & H5 & H6 & H7 & H8 & H9 & H10). unfold decide. fold (backward s) (toward s).
  replace (fs12 s + ffs12 s + ss12 s) with (toward s) by reflexivity.
  assert (N3 : 0 <= ss12 s) by lia. assert (N4 : 0 <= ss21 s) by lia. assert (N5 : 0 <= ffs12 s) by lia. assert (N6 : 0 <= ffs21 s) by lia.
  assert (Hmin : forall l, l <> [] -> shares l -> exists q, find_min_without_outliers l = Ok q /\ (0 <= q <= 1)%Q).
  { intros l Hl Hs. destruct (find_min_ok l Hl) as (x & Hx & E). exists (round2 x). split; [exact E|]. apply round2_unit, Hs, Hx. }
  assert (Hz : (0 <= 0 <= 1)%Q) by (split; unfold Qle; cbn; lia).
  split.
  - intros E. unfold toward, backward in *. destruct (Z.leb_spec (fs21 s + ffs21 s + ss21 s) (fs12 s + ffs12 s + ss12 s));
      match goal with |- context [Z.max ?a (Z.max ?b ?c)] => replace (Z.max a (Z.max b c)) with 0 by lia end; reflexivity.
  - intros E. destruct (Z.leb_spec (backward s) (toward s)) as [Hle|Hle]; cbv zeta iota.
    + assert (0 < toward s) by lia. unfold toward in *.
      destruct (Z.eqb_spec (Z.max (fs12 s) (Z.max (ss12 s) (ffs12 s))) 0); [lia|].
      destruct (Z.ltb_spec (ss12 s) (fs12 s)).
      * destruct (Z.ltb_spec 0 (ffs12 s)); [|exists FS, 0%Q; split; [reflexivity|exact Hz]].
        destruct (Hmin (ffs12_lags s)) as (q & Eq & Hq); [intros C; rewrite C in H5; cbn in H5; lia|exact H9|].
        rewrite Eq. exists FFS, q. split; [reflexivity|exact Hq].
      * destruct (Z.ltb_spec (ffs12 s) (ss12 s)).
        -- destruct (Hmin (ss12_lags s)) as (q & Eq & Hq); [intros C; rewrite C in H3; cbn in H3; lia|exact H7|].
           rewrite Eq. exists SS, q. split; [reflexivity|exact Hq].
        -- destruct (Hmin (ffs12_lags s)) as (q & Eq & Hq); [intros C; rewrite C in H5; cbn in H5; lia|exact H9|].
           rewrite Eq. exists FFS, q. split; [reflexivity|exact Hq].
    + assert (0 < backward s) by (unfold toward in *; lia). unfold backward in *.
      destruct (Z.eqb_spec (Z.max (fs21 s) (Z.max (ss21 s) (ffs21 s))) 0); [lia|].
      destruct (Z.ltb_spec (ss21 s) (fs21 s)).
      * destruct (Z.ltb_spec 0 (ffs21 s)); [|exists FS, 0%Q; split; [reflexivity|exact Hz]].
        destruct (Hmin (ffs21_lags s)) as (q & Eq & Hq); [intros C; rewrite C in H6; cbn in H6; lia|exact H10|].
        rewrite Eq. exists FFS, q. split; [reflexivity|exact Hq].
      * destruct (Z.ltb_spec (ffs21 s) (ss21 s)).
        -- destruct (Hmin (ss21_lags s)) as (q & Eq & Hq); [intros C; rewrite C in H4; cbn in H4; lia|exact H8|].
           rewrite Eq. exists SS, q. split; [reflexivity|exact Hq].
        -- destruct (Hmin (ffs21_lags s)) as (q & Eq & Hq); [intros C; rewrite C in H6; cbn in H6; lia|exact H10|].
           rewrite Eq. exists FFS, q. split; [reflexivity|exact Hq].
Qed.
Lemma gather_counts s1 f1 s2 f2 : 1 <= toward (gather s1 f1 s2 f2) + backward (gather s1 f1 s2 f2)
  /\ 0 <= toward (gather s1 f1 s2 f2) /\ 0 <= backward (gather s1 f1 s2 f2).
Proof.
  unfold gather. rewrite toward_add, backward_add.
  destruct (_ && _); repeat match goal with |- context [if ?b then _ else _] => destruct b end; cbn; lia.
Qed.
(** Which way an occurrence counts: by the starts, if these differ. *)
Lemma gather_by_start s1 f1 s2 f2 : s1 < f1 -> s2 < f2 -> s1 <> s2 ->
  toward (gather s1 f1 s2 f2) = (if s1 <? s2 then 1 else 0) /\ backward (gather s1 f1 s2 f2) = (if s2 <? s1 then 1 else 0).
Proof.
  intros H1 H2 H3. unfold gather. rewrite toward_add, backward_add.
  destruct (Z.eqb_spec s1 s2); [congruence|]. cbn [andb].
  destruct (Z.leb_spec f2 s1); [|destruct (Z.leb_spec f1 s2); [|destruct (Z.leb_spec s1 s2); [destruct (Z.leb_spec f1 f2)|destruct (Z.leb_spec f2 f1)]]];
    destruct (Z.ltb_spec s1 s2), (Z.ltb_spec s2 s1); try lia; cbn; auto.
Qed.
Lemma gather_all_pos l : l <> [] -> 0 < toward (gather_all l) + backward (gather_all l).
Proof.
  intros Hne. rewrite (gather_all_sum toward toward_add eq_refl), (gather_all_sum backward backward_add eq_refl).
  destruct l as [|o l]; [congruence|]. clear Hne. unfold osum. cbn [map fold_right].
  assert (G : forall l, 0 <= fold_right Z.add 0 (map (fun o => let '(s1, f1, s2, f2) := o in toward (gather s1 f1 s2 f2)) l)
              /\ 0 <= fold_right Z.add 0 (map (fun o => let '(s1, f1, s2, f2) := o in backward (gather s1 f1 s2 f2)) l)).
  { clear. induction l as [|[[[s1 f1] s2] f2] l IH]; cbn [map fold_right]; [lia|]. assert (H := gather_counts s1 f1 s2 f2). lia. }
  specialize (G l). destruct o as [[[s1 f1] s2] f2]. assert (H := gather_counts s1 f1 s2 f2). lia.
Qed.
Lemma gather_all_nil l : l = [] -> toward (gather_all l) + backward (gather_all l) = 0.
Proof. intros ->. reflexivity. Qed.

(** ** Rounding *)
Lemma round_div_near a b : 0 < b -> - b <= 2 * (round_div a b * b - a) <= b.
Proof.
  intros Hb. unfold round_div. assert (E := Z.div_mod a b ltac:(lia)). assert (B := Z.mod_pos_bound a b Hb).
  set (q := a / b) in *. set (r := a mod b) in *.
  destruct (Z.ltb_spec (2 * r) b); [nia|]. destruct (Z.ltb_spec b (2 * r)); [nia|]. destruct (Z.even q); nia.
Qed.
Lemma round2_near x : (x - (1 # 200) <= round2 x /\ round2 x <= x + (1 # 200))%Q.
Proof.
  destruct x as [n d]. unfold round2. cbn [Qnum Qden]. assert (H := round_div_near (100 * n) (Zpos d) ltac:(lia)).
  set (r := round_div (100 * n) (Zpos d)) in *. unfold Qle, Qminus, Qplus, Qopp. cbn [Qnum Qden]. rewrite !Pos2Z.inj_mul. split; nia.
Qed.

(** ** The type and the lag that are decided on *)
Lemma fold_qmin_least r : forall x y, In y (x :: r) -> (fold_left qmin r x <= y)%Q.
Proof.
  assert (Hm : forall x y, (qmin x y <= x)%Q /\ (qmin x y <= y)%Q).
  { intros x y. unfold qmin. destruct (Qle_bool x y) eqn:E.
    - apply Qle_bool_iff in E. split; [apply Qle_refl|exact E].
    - split; [|apply Qle_refl]. destruct (Qlt_le_dec y x) as [H|H]; [apply Qlt_le_weak, H|]. apply Qle_bool_iff in H. congruence. }
  induction r as [|z r IH]; intros x y Hy; cbn [fold_left].
  - destruct Hy as [->|[]]. apply Qle_refl.
  - destruct (Hm x z) as [H1 H2]. destruct Hy as [->|[->|Hy]].
    + eapply Qle_trans; [apply IH; left; reflexivity|exact H1].
    + eapply Qle_trans; [apply IH; left; reflexivity|exact H2].
    + apply IH. right. exact Hy.
Qed.
Lemma inlier_typical l x : inlier l x = true <-> typical l x.
Proof.
  unfold inlier, typical. rewrite orb_true_iff, !Qle_bool_iff. reflexivity.
Qed.
Lemma decide_type s one t q : decide s = Ok (Some (one, t, q)) ->
  one = (backward s <=? toward s)
  /\ t = (if one then the_type (fs12 s) (ss12 s) (ffs12 s) else the_type (fs21 s) (ss21 s) (ffs21 s))
  /\ (t = FS -> q = 0%Q)
  /\ (t = SS -> exists x, least_typical (if one then ss12_lags s else ss21_lags s) x /\ q = round2 x)
  /\ (t = FFS -> exists x, least_typical (if one then ffs12_lags s else ffs21_lags s) x /\ q = round2 x).
Proof.
  assert (Hmin : forall l q, find_min_without_outliers l = Ok q -> exists x, least_typical l x /\ q = round2 x).
  { intros l q0. unfold find_min_without_outliers. destruct (filter (inlier l) l) as [|y r] eqn:Ef; [discriminate|].
    intros [= <-]. exists (fold_left qmin r y). split; [|reflexivity]. assert (H := fold_qmin_in r y). rewrite <- Ef in H.
    apply filter_In in H as [H1 H2]. split; [exact H1|]. split; [apply inlier_typical, H2|]. intros z Hz Ht. apply fold_qmin_least.
    rewrite <- Ef. apply filter_In. split; [exact Hz|apply inlier_typical, Ht]. }
  unfold decide, the_type, toward, backward.
  destruct (fs21 s + ffs21 s + ss21 s <=? fs12 s + ffs12 s + ss12 s);
    (destruct (_ =? 0); [discriminate|]; destruct (_ <? _); [destruct (_ <? _)|destruct (_ <? _)]);
    try (match goal with |- context [find_min_without_outliers ?l] => destruct (find_min_without_outliers l) as [q0|] eqn:E; [|discriminate] end;
         cbn [bind]); intros [= <- <- <-];
    (split; [reflexivity|split; [reflexivity|split; [|split]; intros C; try discriminate C; auto]]).
Qed.

Definition turned (o : occ) : occ := let '(s1, f1, s2, f2) := o in (s2, f2, s1, f1).
Definition side (fs ss ffs : Z) (ss_lags ffs_lags : list Q) (l : list occ) : Prop :=
  fs = occurrences_of after l /\ ss = occurrences_of contains l /\ ffs = occurrences_of overlaps l
  /\ ss_lags = map share (filter contains l) /\ ffs_lags = map share (filter overlaps l).
Lemma gather_sides o s1 f1 s2 f2 : o = (s1, f1, s2, f2) -> regular o -> let s := gather s1 f1 s2 f2 in
  side (fs12 s) (ss12 s) (ffs12 s) (ss12_lags s) (ffs12_lags s) [o]
  /\ side (fs21 s) (ss21 s) (ffs21 s) (ss21_lags s) (ffs21_lags s) [turned o].
Proof.
  intros -> (H1 & H2 & H3). unfold gather, side, occurrences_of, turned, after, contains, overlaps. cbn [filter].
  destruct (Z.eqb_spec s1 s2); [congruence|]. cbn [andb].
  destruct (Z.leb_spec f2 s1); [|destruct (Z.leb_spec f1 s2); [|destruct (Z.leb_spec s1 s2); [destruct (Z.leb_spec f1 f2)|destruct (Z.leb_spec f2 f1)]]];
    repeat match goal with |- context [?a <? ?b] => destruct (Z.ltb_spec a b); try lia end; 
    cbn; unfold delta, share; rewrite ?Z.max_l by lia; repeat split; reflexivity.
Qed.
Lemma side_app a1 a2 a3 l1 l2 x b1 b2 b3 m1 m2 y : side a1 a2 a3 l1 l2 x -> side b1 b2 b3 m1 m2 y ->
  side (a1 + b1) (a2 + b2) (a3 + b3) (l1 ++ m1) (l2 ++ m2) (x ++ y).
Proof.
  intros (-> & -> & -> & -> & ->) (-> & -> & -> & -> & ->). unfold side, occurrences_of. rewrite !filter_app, !app_length, !map_app, !Nat2Z.inj_add.
  repeat split; reflexivity.
Qed.
Lemma gather_all_sides l : (forall o, In o l -> regular o) -> let s := gather_all l in
  side (fs12 s) (ss12 s) (ffs12 s) (ss12_lags s) (ffs12_lags s) l
  /\ side (fs21 s) (ss21 s) (ffs21 s) (ss21_lags s) (ffs21_lags s) (map turned l).
Proof.
  intros Hr. cbv zeta. unfold gather_all.
  assert (G : forall l a pre, (forall o, In o l -> regular o) ->
    side (fs12 a) (ss12 a) (ffs12 a) (ss12_lags a) (ffs12_lags a) pre
    /\ side (fs21 a) (ss21 a) (ffs21 a) (ss21_lags a) (ffs21_lags a) (map turned pre) ->
    let s := fold_left (fun a o => let '(s1, f1, s2, f2) := o in add_stats a (gather s1 f1 s2 f2)) l a in
    side (fs12 s) (ss12 s) (ffs12 s) (ss12_lags s) (ffs12_lags s) (pre ++ l)
    /\ side (fs21 s) (ss21 s) (ffs21 s) (ss21_lags s) (ffs21_lags s) (map turned (pre ++ l))).
  { clear. induction l as [|o l IH]; intros a pre Hr Ha; [rewrite app_nil_r; exact Ha|]. cbv zeta. cbn [fold_left].
    change (o :: l) with ([o] ++ l). rewrite app_assoc. destruct o as [[[s1 f1] s2] f2].
    apply (IH (add_stats a (gather s1 f1 s2 f2))); [intros; apply Hr; right; assumption|].
    destruct (gather_sides _ s1 f1 s2 f2 eq_refl (Hr _ (or_introl eq_refl))) as [G1 G2]. destruct Ha as [A1 A2].
    unfold add_stats. cbn [fs12 fs21 ss12 ss21 ffs12 ffs21 ss12_lags ss21_lags ffs12_lags ffs21_lags].
    split; [apply side_app; assumption|]. rewrite map_app. apply side_app; assumption. }
  apply (G l no_stats []); [exact Hr|]. split; repeat split; reflexivity.
Qed.
(** Each occurrence counts for the one that starts first. *)
Lemma three_ways l : (forall o, In o l -> regular o) ->
  occurrences_of after l + occurrences_of overlaps l + occurrences_of contains l
  = occurrences_of starts_first l.
Proof.
  intros H. unfold occurrences_of. induction l as [|[[[s1 f1] s2] f2] l IH]; [reflexivity|].
  specialize (IH (fun o Ho => H o (or_intror Ho))). destruct (H _ (or_introl eq_refl)) as (R1 & R2 & R3). cbn [filter].
  set (X := filter after l) in *. set (Y := filter overlaps l) in *. set (W := filter contains l) in *.
  set (V := filter starts_first l) in *. clearbody X Y W V.
  unfold after, overlaps, contains, starts_first.
  repeat match goal with |- context [?a <? ?b] => destruct (Z.ltb_spec a b); try lia | |- context [?a <=? ?b] => destruct (Z.leb_spec a b); try lia end;
    cbn [andb List.length]; lia.
Qed.

(** ** The performances of a work at a site *)
Lemma insert_refines {A} (key : A -> Z) (R : A -> A -> Prop) x l :
  StronglySorted (fun a b => key a < key b \/ key a = key b /\ R a b) l -> Forall (R x) l ->
  StronglySorted (fun a b => key a < key b \/ key a = key b /\ R a b) (insert key x l).
Proof.
  intros H. induction H as [|y l Hl IH Hf]; intros HR; cbn [insert]; [repeat constructor|].
  inversion HR as [|? ? HRy HRl]; subst. destruct (Z.leb_spec (key x) (key y)).
  - constructor; [constructor; assumption|]. rewrite Forall_forall in *. intros z Hz.
    assert (key y <= key z) by (destruct Hz as [<-|Hz]; [lia|]; destruct (Hf z Hz); lia).
    destruct (Z.eq_dec (key x) (key z)); [right|left; lia]. split; [assumption|].
    destruct Hz as [<-|Hz]; [exact HRy|apply HRl, Hz].
  - constructor; [apply IH, HRl|]. rewrite Forall_forall in *. intros z Hz. apply (Permutation_in z (insert_perm key x l)) in Hz.
    destruct Hz as [<-|Hz]; [left; lia|apply Hf, Hz].
Qed.
Lemma sort_refines {A} (key : A -> Z) (R : A -> A -> Prop) l : StronglySorted R l ->
  StronglySorted (fun a b => key a < key b \/ key a = key b /\ R a b) (sort_by key l).
Proof.
  induction 1 as [|x l Hl IH Hf]; cbn [sort_by]; [constructor|]. apply insert_refines; [exact IH|].
  eapply Permutation_Forall; [symmetry; apply sort_perm|exact Hf].
Qed.
Lemma sorted_weaken {A} (R R' : A -> A -> Prop) l : (forall a b, R a b -> R' a b) -> StronglySorted R l -> StronglySorted R' l.
Proof. intros H. induction 1 as [|x l Hl IH Hf]; constructor; [exact IH|]. eapply Forall_impl; [|exact Hf]. auto. Qed.
Lemma sorted_map {A B} (f : A -> B) (R : B -> B -> Prop) l : StronglySorted (fun a b => R (f a) (f b)) l -> StronglySorted R (map f l).
Proof.
  induction 1 as [|x l Hl IH Hf]; cbn; constructor; [exact IH|]. rewrite Forall_forall in *. intros y Hy.
  apply in_map_iff in Hy as (z & <- & Hz). apply Hf, Hz.
Qed.
Lemma sorted_unique {A} (R : A -> A -> Prop) : (forall a b, R a b -> R b a -> a = b) ->
  forall l1 l2, StronglySorted R l1 -> StronglySorted R l2 -> Permutation l1 l2 -> l1 = l2.
Proof.
  intros Hanti. induction l1 as [|x l1 IH]; intros l2 H1 H2 P.
  - apply Permutation_nil in P. congruence.
  - destruct l2 as [|y l2]; [apply Permutation_sym, Permutation_nil in P; discriminate|].
    inversion H1 as [|? ? S1 F1]; subst. inversion H2 as [|? ? S2 F2]; subst. rewrite Forall_forall in F1, F2.
    assert (E : x = y).
    { assert (Hx : In x (y :: l2)) by (eapply Permutation_in; [exact P|left; reflexivity]).
      assert (Hy : In y (x :: l1)) by (eapply Permutation_in; [symmetry; exact P|left; reflexivity]).
      destruct Hx as [->|Hx]; [reflexivity|]. destruct Hy as [->|Hy]; [reflexivity|]. apply Hanti; auto. }
    subst y. f_equal. apply IH; auto. eapply Permutation_cons_inv; eauto.
Qed.
Lemma earlier_asym a b : earlier a b -> earlier b a -> False.
Proof. destruct a, b; cbn; auto; lia. Qed.
Lemma before_anti a b : before a b -> before b a -> a = b.
Proof.
  destruct a as [a1 a2], b as [b1 b2]. unfold before. cbn [fst snd].
  intros [H1|[E1 H1]] [H2|[E2 H2]].
  - exfalso. exact (earlier_asym _ _ H1 H2).
  - subst. exfalso. exact (earlier_asym _ _ H1 H1).
  - subst. exfalso. exact (earlier_asym _ _ H2 H2).
  - subst. destruct H1 as [H1| ->]; [|reflexivity]. destruct H2 as [H2| ->]; [|reflexivity]. exfalso. exact (earlier_asym _ _ H1 H2).
Qed.
Lemma performed_performances history site name : performances history site name (map days_of (performed history site name)).
Proof.
  split.
  - apply Permutation_map. unfold performed. rewrite !sort_perm. reflexivity.
  - apply sorted_map. unfold performed.
    set (l := filter _ history). clearbody l.
    assert (H0 : StronglySorted (fun _ _ : hrow => True) l) by (induction l; constructor; auto; apply Forall_forall; auto).
    apply (sort_refines (fun r => day (h_last r))), (sort_refines (fun r => absent (h_last r))),
      (sort_refines (fun r => day (h_first r))), (sort_refines (fun r => absent (h_first r))) in H0.
    eapply sorted_weaken; [|exact H0]. intros [s1 n1 a1 b1] [s2 n2 a2 b2]. unfold before, days_of, earlier. cbn.
    destruct a1, a2, b1, b2; cbn; intros H; intuition (try lia; try (subst; auto)); right; split; try congruence; try (left; lia); try (right; f_equal; lia).
Qed.
Lemma together_dated l1 : forall l2, together l1 l2 = flat_map dated (combine (map days_of l1) (map days_of l2)).
Proof.
  induction l1 as [|a r1 IH]; intros [|b r2]; [reflexivity..|]. cbn [together map combine flat_map]. unfold days_of at 1 2, dated at 1.
  rewrite IH. destruct (h_first a), (h_last a), (h_first b), (h_last b); reflexivity.
Qed.
Lemma occurrences_common history perf n1 n2 : (forall site n, performances history site n (perf site n)) ->
  occurrences history n1 n2 = common history perf n1 n2.
Proof.
  intros H. unfold occurrences, common. rewrite !flat_map_concat_map. f_equal. apply map_ext. intros site. rewrite together_dated.
  assert (E : forall n, map days_of (performed history site n) = perf site n).
  { intros n. destruct (H site n) as [P1 S1]. destruct (performed_performances history site n) as [P2 S2].
    apply (sorted_unique before before_anti); auto. rewrite P1, P2. reflexivity. }
  rewrite !E. reflexivity.
Qed.
Lemma dated_turned l1 : forall l2, flat_map dated (combine l2 l1) = map turned (flat_map dated (combine l1 l2)).
Proof.
  induction l1 as [|[[a|] [b|]] l1 IH]; intros [|[[c|] [d|]] l2]; cbn [combine flat_map]; try reflexivity; rewrite map_app, IH; reflexivity.
Qed.
Lemma common_turned history perf n1 n2 : common history perf n2 n1 = map turned (common history perf n1 n2).
Proof.
  unfold common. induction (nodup _ _) as [|site l IH]; [reflexivity|]. cbn [flat_map]. rewrite map_app, IH, dated_turned. reflexivity.
Qed.
