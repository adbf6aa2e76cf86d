(** The slot search returns the least feasible start; the queue loop returns the least
    start that suits every required kind. *)
From Coq Require Import ZArith List Bool Lia Sorted.
From Coq Require Import ZifyBool ZifyNat.
From Verif Require Import TimeModel MomentumModel MomentumSpec MomentumProofs MomentumInvProofs.
Import ListNotations.
Local Open Scope Z_scope.

Lemma last_fail_spec w : forall l i,
  match last_fail w i l with
  | None => forall x, In x l -> w <= ev_cnt x
  | Some j => exists l1 f l2, l = l1 ++ f :: l2 /\ j = (i + length l1)%nat /\
                ev_cnt f < w /\ (forall x, In x l2 -> w <= ev_cnt x)
  end.
Proof.
  induction l as [|e r IH]; intros i; simpl; [intros x []|].
  specialize (IH (S i)). destruct (last_fail w (S i) r) as [j|].
  - destruct IH as (l1 & f & l2 & -> & -> & Hf & Hl2).
    exists (e :: l1), f, l2. simpl. repeat split; auto; try lia.
  - destruct (Z.ltb_spec (ev_cnt e) w).
    + exists [], e, r. simpl. repeat split; auto; try lia.
    + intros x [<-|Hx]; auto.
Qed.

(** With no booking active any more, the whole capacity is free. *)
Lemma load_after bs t : (forall b, In b bs -> b_end b <= t) -> load bs t = 0.
Proof.
  induction bs as [|b bs IH]; simpl; intros H; [reflexivity|].
  rewrite IH by auto. unfold active. specialize (H b (or_introl eq_refl)).
  destruct (Z.leb_spec (b_start b) t), (Z.ltb_spec t (b_end b)); simpl; lia.
Qed.

Lemma inv_ne cap n bs state : agent_inv cap n bs state -> state <> [].
Proof. intros [(r & -> & _) _ _ _ _ _ _]; discriminate. Qed.

Lemma inv_time_bound cap n bs state x : agent_inv cap n bs state -> In x state ->
  0 <= ev_time x <= TIME_INF.
Proof.
  intros Hi Hx. assert (Hg := inv_good _ _ _ _ Hi). rewrite Forall_forall in Hg.
  destruct (Hg x Hx) as [(_ & ? & _)|[_ ?]]; unfold TIME_INF in *; lia.
Qed.

Lemma inv_after_last cap n bs state t : agent_inv cap n bs state -> last_time state <= t -> load bs t = 0.
Proof.
  intros Hi Ht. apply load_after. intros b Hb. apply (ai_last _ _ _ _ Hi) in Hb. lia.
Qed.

Lemma inv_last_time_bound cap n bs state : agent_inv cap n bs state -> 0 <= last_time state <= TIME_INF.
Proof.
  intros Hi. eapply inv_time_bound; [exact Hi|]. apply last_In. eapply inv_ne; exact Hi.
Qed.

Lemma last_count cap n bs state : agent_inv cap n bs state -> ev_cnt (last state d0) = cap.
Proof.
  intros Hi. assert (Hb := inv_last_time_bound _ _ _ _ Hi).
  assert (Hl := ai_level _ _ _ _ Hi (last_time state) ltac:(lia)).
  rewrite (inv_after_last _ _ _ _ _ Hi) in Hl by lia.
  rewrite <- (Z.sub_0_r cap), <- Hl. unfold level. fold d0.
  f_equal. rewrite filter_all; [reflexivity|].
  intros x Hx. destruct (SS_last Rev state d0 x (ai_sorted _ _ _ _ Hi) Hx) as [->|HR].
  - unfold last_time; fold d0; lia.
  - apply Rev_le in HR. unfold last_time; fold d0. lia.
Qed.

Lemma level_app P c Q t : (forall x, In x P -> ev_time x <= t) -> ev_time c <= t ->
  (forall x, In x Q -> t < ev_time x) -> level (P ++ c :: Q) t = ev_cnt c.
Proof.
  intros HP Hc HQ. unfold level. rewrite filter_app. cbn [filter].
  destruct (Z.leb_spec (ev_time c) t); [|lia].
  rewrite (filter_none _ Q) by (intros x Hx; apply HQ in Hx; lia).
  rewrite last_app_cons. reflexivity.
Qed.

Lemma firstn_filter_lt e P c Q : StronglySorted Rev (P ++ c :: Q) ->
  (forall x, In x P -> ev_time x < e) ->
  firstn (length (filter (fun x => ev_time x <? e) (P ++ c :: Q)) - length P)
         (skipn (length P) (P ++ c :: Q))
  = filter (fun x => ev_time x <? e) (c :: Q).
Proof.
  intros Hs HP. rewrite skipn_app_exact, filter_app, app_length.
  rewrite (filter_all _ P) by (intros x Hx; apply HP in Hx; lia).
  rewrite Nat.add_comm, Nat.add_sub.
  apply SS_app in Hs as (_ & Hs & _).
  assert (H := split_at (fun x => ev_time x <? e) (c :: Q) Hs).
  rewrite H at 2 by (intros a b Hab; apply Rev_le in Hab; lia).
  apply firstn_app_exact.
Qed.

Definition least_slot cap bs pt d w r : Prop :=
  pt <= r /\ fits cap bs r d w /\ (forall s, pt <= s < r -> ~ fits cap bs s d w).

Lemma slot_loop_spec cap n bs state d w : agent_inv cap n bs state -> 0 < d -> w <= cap ->
  forall fuel cur P c Q, state = P ++ c :: Q ->
  (fuel + length P > length state)%nat -> 0 <= cur ->
  ev_time c <= cur -> (forall x, In x Q -> cur <= ev_time x) ->
  exists r, slot_loop fuel state d w (last_time state) cur (length P) = Some r /\
    least_slot cap bs cur d w r /\
    (r = cur \/ exists x, In x state /\ ev_time x = r).
Proof.
  intros Hi Hd Hw. assert (Hs := ai_sorted _ _ _ _ Hi). assert (Hg := inv_good _ _ _ _ Hi).
  assert (Hlt := inv_last_time_bound _ _ _ _ Hi).
  induction fuel as [|fuel IH]; intros cur P c Q Hst Hfuel Hcur Hc HQ.
  { rewrite Hst, app_length in Hfuel. lia. }
  cbn [slot_loop]. destruct (Z.ltb_spec cur (last_time state)) as [Hcl|Hcl].
  2:{ exists cur. split; [reflexivity|]. split; [|left; reflexivity].
      repeat split; [lia| |lia]. intros t Ht.
      rewrite (inv_after_last _ _ _ _ t Hi) by lia. lia. }
  set (e := tadd cur d).
  assert (He : cur < e <= cur + d /\ e <= TIME_INF /\ (e = cur + d \/ e = TIME_INF)).
  { unfold e, tadd, set_time. destruct (Z.ltb_spec TIME_INF (cur + d)); [lia|].
    destruct (Z.ltb_spec (cur + d) (- TIME_INF)); lia. }
  rewrite (bisect_left_spec n) by (auto; lia).
  assert (HP : forall x, In x P -> ev_time x <= ev_time c).
  { intros x Hx. rewrite Hst in Hs. apply SS_app in Hs as (_ & _ & HR).
    apply Rev_le, HR; simpl; auto. }
  assert (Hseg : firstn (length (filter (fun x => ev_time x <? e) state) - length P) (skipn (length P) state)
                 = filter (fun x => ev_time x <? e) (c :: Q)).
  { rewrite Hst. apply firstn_filter_lt; [rewrite <- Hst; exact Hs|].
    intros x Hx. apply HP in Hx. lia. }
  rewrite Hseg. clear Hseg.
  assert (Hlf := last_fail_spec w (filter (fun x => ev_time x <? e) (c :: Q)) (length P)).
  destruct (last_fail w (length P) (filter (fun x => ev_time x <? e) (c :: Q))) as [j|].
  - (* some event fails *)
    destruct Hlf as (l1 & f & l2 & Hl & Hj & Hf & Hl2).
    assert (HscQ : StronglySorted Rev (c :: Q)).
    { rewrite Hst in Hs. apply SS_app in Hs; tauto. }
    assert (Hsplit := split_at (fun x => ev_time x <? e) (c :: Q) HscQ).
    rewrite Hl in Hsplit. specialize (Hsplit ltac:(intros a b Hab; apply Rev_le in Hab; lia)).
    set (rest := filter (fun x => negb (ev_time x <? e)) (c :: Q)) in *.
    assert (Hst2 : state = (P ++ l1) ++ f :: (l2 ++ rest)).
    { rewrite Hst, Hsplit, <- !app_assoc. reflexivity. }
    assert (Hfin : In f (c :: Q) /\ ev_time f < e).
    { assert (H : In f (filter (fun x => ev_time x <? e) (c :: Q)))
        by (rewrite Hl, in_app_iff; right; left; reflexivity).
      apply filter_In in H as [? ?]. split; [assumption|lia]. }
    destruct Hfin as [Hfin Hfe].
    assert (Hnext : exists g R, l2 ++ rest = g :: R).
    { destruct (l2 ++ rest) as [|g R] eqn:E; [|eauto]. exfalso.
      assert (Hlc := last_count _ _ _ _ Hi). rewrite Hst2, last_app_cons in Hlc. simpl in Hlc. lia. }
    destruct Hnext as (g & R & HgR).
    rewrite HgR in Hst2.
    assert (Hfg : ev_time f < ev_time g).
    { assert (Hs2 := Hs). rewrite Hst2 in Hs2. apply SS_app in Hs2 as (_ & Hs2 & _).
      apply SS_cons in Hs2 as [_ HR]. specialize (HR g (or_introl eq_refl)).
      destruct HR as [?|[Hteq Hcnt]]; [assumption|]. exfalso.
      destruct l2 as [|g' l2'].
      - simpl in HgR. assert (Hgr : In g rest) by (rewrite HgR; left; reflexivity).
        unfold rest in Hgr. apply filter_In in Hgr as [_ Hgr]. lia.
      - simpl in HgR. injection HgR as -> HR'. specialize (Hl2 g (or_introl eq_refl)). lia. }
    assert (Hst3 : state = (P ++ l1 ++ [f]) ++ g :: R).
    { rewrite Hst2, <- !app_assoc. reflexivity. }
    assert (Hlen : S j = length (P ++ l1 ++ [f])).
    { rewrite Hj, !app_length. simpl. lia. }
    assert (Hnth : nth_error state (S j) = Some g).
    { rewrite Hst3, Hlen, nth_error_app2 by lia. rewrite Nat.sub_diag. reflexivity. }
    rewrite Hnth, Hlen.
    assert (HgQ : In g Q).
    { assert (Hgc : In g (c :: Q)).
      { rewrite Hsplit. rewrite <- app_assoc. simpl. rewrite HgR, in_app_iff. simpl. auto. }
      destruct Hgc as [->|?]; [|assumption].
      exfalso. destruct Hfin as [->|Hfin]; [lia|]. apply HQ in Hfin. lia. }
    assert (Hgcur : cur <= ev_time g) by (apply HQ; exact HgQ).
    assert (Hgin : In g state) by (rewrite Hst3, in_app_iff; right; left; reflexivity).
    destruct (IH (ev_time g) (P ++ l1 ++ [f]) g R) as (r & Hr & Hleast & Hev).
    + exact Hst3.
    + rewrite <- Hlen. lia.
    + lia.
    + lia.
    + intros x Hx. rewrite Hst3 in Hs. apply SS_app in Hs as (_ & Hs' & _).
      apply SS_cons in Hs' as [_ HR]. apply Rev_le, HR, Hx.
    + exists r. split; [exact Hr|]. split.
      * destruct Hleast as (H1 & H2 & H3). repeat split; [lia|exact H2|].
        intros s Hsr. destruct (Z.lt_ge_cases s (ev_time g)) as [Hsg|Hsg]; [|apply H3; lia].
        intros Hfit.
        (* the failing event covers a moment of [s, s+d) *)
        set (t := Z.max s (ev_time f)).
        assert (Hft := inv_time_bound _ _ _ _ f Hi ltac:(rewrite Hst2, in_app_iff; right; left; reflexivity)).
        specialize (Hfit t ltac:(unfold t; lia)).
        assert (Hlev := ai_level _ _ _ _ Hi t ltac:(unfold t; lia)).
        rewrite Hst2 in Hlev. rewrite level_app in Hlev; [lia| | |].
        -- intros x Hx. assert (ev_time x <= ev_time f); [|unfold t; lia].
           rewrite Hst2 in Hs. apply SS_app in Hs as (_ & _ & HR). apply Rev_le, HR; [exact Hx|left; reflexivity].
        -- unfold t; lia.
        -- intros x Hx. assert (ev_time g <= ev_time x); [|unfold t; lia].
           destruct Hx as [->|Hx]; [lia|].
           rewrite Hst3 in Hs. apply SS_app in Hs as (_ & Hs' & _).
           apply SS_cons in Hs' as [_ HR]. apply Rev_le, HR, Hx.
      * destruct Hev as [->|Hev]; [right; eauto|right; exact Hev].
  - (* no event fails *)
    exists cur. split; [reflexivity|]. split; [|left; reflexivity].
    repeat split; [lia| |lia]. intros t Ht.
    destruct (Z.lt_ge_cases t (last_time state)) as [Htl|Htl].
    2:{ rewrite (inv_after_last _ _ _ _ t Hi) by lia. lia. }
    assert (Hte : t < e) by lia.
    assert (Hlev := ai_level _ _ _ _ Hi t ltac:(lia)).
    assert (w <= level state t); [|lia].
    unfold level. rewrite Hst, filter_app, (filter_all _ P) by (intros x Hx; apply HP in Hx; lia).
    assert (Hne : filter (fun x => ev_time x <=? t) (c :: Q) <> []).
    { cbn [filter]. destruct (Z.leb_spec (ev_time c) t); [discriminate|lia]. }
    rewrite last_app_ne by exact Hne.
    assert (Hin := last_In _ (Ev 0 INITIAL 0 0) Hne). apply filter_In in Hin as [Hin1 Hin2].
    apply Hlf. apply filter_In. split; [exact Hin1|lia].
Qed.

Lemma slot_spec cap n bs state pt d w : agent_inv cap n bs state -> 0 <= pt -> 0 <= d -> w <= cap ->
  exists r, find_earliest_time_slot state pt d w false = Some r /\
    least_slot cap bs pt d w r /\
    (r = pt \/ exists x, In x state /\ ev_time x = r).
Proof.
  intros Hi Hpt Hd Hw. unfold find_earliest_time_slot.
  destruct (Z.eqb_spec d 0) as [->|Hd0].
  { exists pt. split; [reflexivity|]. split; [|left; reflexivity].
    repeat split; [lia|intros t Ht; lia|lia]. }
  rewrite (py_nth_m1 _ d0) by (eapply inv_ne; exact Hi).
  assert (Hs := ai_sorted _ _ _ _ Hi).
  rewrite (bisect_right_spec n) by (auto using (inv_good _ _ _ _ Hi); try lia; try (eapply inv_good; exact Hi); apply (ai_n _ _ _ _ Hi)).
  assert (HneA := partA_ne _ _ _ _ pt Hi Hpt).
  assert (Hsplit := split_at (fun x => ev_time x <=? pt) state Hs).
  specialize (Hsplit ltac:(intros a b Hab; apply Rev_le in Hab; lia)).
  fold (partA pt state) in *.
  destruct (@exists_last _ _ HneA) as (P & c & HP).
  rewrite HP in Hsplit. rewrite <- app_assoc in Hsplit. simpl in Hsplit.
  rewrite HP, app_length. simpl length.
  replace (length P + 1 - 1)%nat with (length P) by lia.
  change (ev_time (last state d0)) with (last_time state).
  assert (Hcin : In c (partA pt state)) by (rewrite HP, in_app_iff; right; left; reflexivity).
  apply in_partA in Hcin as [Hcin Hct].
  apply (slot_loop_spec cap n bs state d w Hi ltac:(lia) Hw _ pt P c _ Hsplit); try lia.
  intros x Hx. apply filter_In in Hx as [_ Hx]. lia.
Qed.

Lemma slot_spec_independent cap n bs state pt d w : agent_inv cap n bs state -> 0 <= pt -> 0 < d -> w <= cap ->
  exists r, find_earliest_time_slot state pt d w true = Some r /\
    pt <= r /\ fits cap bs r d w /\ (forall b, In b bs -> b_end b <= r) /\
    (r = pt \/ exists x, In x state /\ ev_time x = r).
Proof.
  intros Hi Hpt Hd Hw. unfold find_earliest_time_slot.
  destruct (Z.eqb_spec d 0); [lia|].
  rewrite (py_nth_m1 _ d0) by (eapply inv_ne; exact Hi).
  change (ev_time (last state d0)) with (last_time state).
  exists (tmax pt (last_time state)). split; [reflexivity|].
  assert (Hm : pt <= tmax pt (last_time state) /\ last_time state <= tmax pt (last_time state)
               /\ (tmax pt (last_time state) = pt \/ tmax pt (last_time state) = last_time state)).
  { unfold tmax. destruct (Z.ltb_spec pt (last_time state)); lia. }
  repeat split; try tauto.
  - intros t Ht. rewrite (inv_after_last _ _ _ _ t Hi) by lia. lia.
  - intros b Hb. apply (ai_last _ _ _ _ Hi) in Hb. lia.
  - destruct Hm as (_ & _ & Hm). destruct Hm as [Hm|Hm]; rewrite Hm; [left; reflexivity|right].
    exists (last state d0). split; [apply last_In; eapply inv_ne; exact Hi|reflexivity].
Qed.
