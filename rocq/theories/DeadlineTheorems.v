(** C42: the search for a team size that meets a deadline. *)
From Coq Require Import ZArith List Bool Lia.
From Verif Require Import TimeModel DeadlineModel.
Import ListNotations.
Local Open Scope Z_scope.

Section Proofs.
  Variable fitness : Z -> list nat -> option Z.
  Variable deadline : Z.
  (** Times are representable and so is the deadline. *)
  Hypothesis Htimes : forall k spec t, fitness k spec = Some t -> 0 <= t <= TIME_INF.
  Hypothesis Hdeadline : 0 <= deadline < TIME_INF.

  Notation bisect := (bisect fitness deadline).
  Notation probes := (probes fitness deadline).
  Notation separate := (separate fitness deadline).

  (** What the bisection has recorded about the coefficients tried so far. *)
  Definition left_ok (done : list Z) (fit m : Z) : Prop :=
    (fit = TIME_INF /\ forall k t, In k done -> fitness k [] = Some t -> deadline < t) \/
    (fit < TIME_INF /\ In m done /\ exists t, fitness m [] = Some t /\ t <= deadline /\ fit = deadline - t /\
       forall k t', In k done -> fitness k [] = Some t' -> t' <= deadline -> t' <= t).
  Definition right_ok (done : list Z) (fit m : Z) : Prop :=
    (fit = TIME_INF /\ m = K_MIN /\ forall k t, In k done -> fitness k [] = Some t -> t <= deadline) \/
    (In m done /\ exists t, fitness m [] = Some t /\ deadline < t /\ fit = t - deadline /\
       forall k t', In k done -> fitness k [] = Some t' -> deadline < t' -> t <= t').

  Lemma bisect_spec : forall fuel k_min k_max lf lm rf rm done lf' lm' rf' rm',
    left_ok done lf lm -> right_ok done rf rm ->
    bisect fuel k_min k_max lf lm rf rm = Best lf' lm' rf' rm' ->
    let all := done ++ probes fuel k_min k_max in left_ok all lf' lm' /\ right_ok all rf' rm'.
  Proof.
    assert (I0 : 0 < TIME_INF) by (unfold TIME_INF; lia).
    induction fuel as [|fuel IH]; intros k_min k_max lf lm rf rm done lf' lm' rf' rm' HL HR H;
      cbn [DeadlineModel.bisect DeadlineModel.probes] in *.
    - destruct (negb _); [|discriminate]. injection H as <- <- <- <-. cbv zeta. rewrite app_nil_r. auto.
    - destruct (negb _); [injection H as <- <- <- <-; cbv zeta; rewrite app_nil_r; auto|].
      set (m := (k_min + k_max) / 2) in *. destruct (fitness m []) as [t|] eqn:E; [|discriminate].
      assert (Ht := Htimes _ _ _ E).
      assert (App : forall l, done ++ m :: l = (done ++ [m]) ++ l) by (intros l; rewrite <- app_assoc; reflexivity).
      assert (Hin : forall k, In k (done ++ [m]) <-> In k done \/ k = m) by (intros k; rewrite in_app_iff; simpl; intuition).
      cbv zeta. rewrite App.
      destruct (Z.ltb_spec deadline t) as [Hlt|Hge].
      + assert (HL' : left_ok (done ++ [m]) lf lm).
        { destruct HL as [[-> HL]|(L1 & L2 & t0 & L3 & L4 & L5 & L6)]; [left|right].
          - split; [reflexivity|]. intros k t' Hk Ek. apply Hin in Hk as [Hk| ->]; [eapply HL; eauto|congruence].
          - split; [exact L1|]. split; [apply Hin; auto|]. exists t0. repeat split; auto.
            intros k t' Hk Ek Hle. apply Hin in Hk as [Hk| ->]; [eauto|]. assert (t' = t) by congruence. lia. }
        assert (HR' : forall b, (Z.abs (t - deadline) <=? rf) = b ->
                  right_ok (done ++ [m]) (if b then Z.abs (t - deadline) else rf) (if b then m else rm)).
        { intros [|] Eb; [apply Z.leb_le in Eb|apply Z.leb_gt in Eb].
          - right. split; [apply Hin; auto|]. exists t. split; [exact E|]. split; [exact Hlt|]. split; [lia|].
            intros k t' Hk Ek Hd. apply Hin in Hk as [Hk| ->]; [|assert (t' = t) by congruence; lia].
            destruct HR as [(R1 & R2 & R3)|(R1 & t0 & R2 & R3 & R4 & R5)]; [specialize (R3 k t' Hk Ek); lia|].
            specialize (R5 k t' Hk Ek Hd). lia.
          - destruct HR as [(R1 & R2 & R3)|(R1 & t0 & R2 & R3 & R4 & R5)]; [lia|].
            right. split; [apply Hin; auto|]. exists t0. repeat split; auto.
            intros k t' Hk Ek Hd. apply Hin in Hk as [Hk| ->]; [eauto|]. assert (t' = t) by congruence. lia. }
        destruct (Z.abs (t - deadline) <=? rf) eqn:Eb; eapply IH; try eassumption; apply (HR' _ eq_refl).
      + assert (HR' : right_ok (done ++ [m]) rf rm).
        { destruct HR as [(R1 & R2 & R3)|(R1 & t0 & R2 & R3 & R4 & R5)]; [left|right].
          - split; [exact R1|]. split; [exact R2|]. intros k t' Hk Ek. apply Hin in Hk as [Hk| ->]; [eauto|]. assert (t' = t) by congruence. lia.
          - split; [apply Hin; auto|]. exists t0. repeat split; auto.
            intros k t' Hk Ek Hd. apply Hin in Hk as [Hk| ->]; [eauto|]. assert (t' = t) by congruence. lia. }
        assert (HL' : forall b, (Z.abs (t - deadline) <=? lf) = b ->
                  left_ok (done ++ [m]) (if b then Z.abs (t - deadline) else lf) (if b then m else lm)).
        { intros [|] Eb; [apply Z.leb_le in Eb|apply Z.leb_gt in Eb].
          - right. split; [lia|]. split; [apply Hin; auto|]. exists t. split; [exact E|]. split; [lia|]. split; [lia|].
            intros k t' Hk Ek Hd. apply Hin in Hk as [Hk| ->]; [|assert (t' = t) by congruence; lia].
            destruct HL as [[_ HL]|(L1 & L2 & t0 & L3 & L4 & L5 & L6)]; [specialize (HL k t' Hk Ek); lia|].
            specialize (L6 k t' Hk Ek Hd). lia.
          - destruct HL as [[-> HL]|(L1 & L2 & t0 & L3 & L4 & L5 & L6)]; [lia|].
            right. split; [exact L1|]. split; [apply Hin; auto|]. exists t0. repeat split; auto.
            intros k t' Hk Ek Hd. apply Hin in Hk as [Hk| ->]; [eauto|]. assert (t' = t) by congruence. lia. }
        destruct (Z.abs (t - deadline) <=? lf) eqn:Eb; eapply IH; try eassumption; apply (HL' _ eq_refl).
  Qed.

  Lemma bisect_spec0 : forall fuel k_min k_max lm0 lf lm rf rm,
    bisect fuel k_min k_max TIME_INF lm0 TIME_INF K_MIN = Best lf lm rf rm ->
    left_ok (probes fuel k_min k_max) lf lm /\ right_ok (probes fuel k_min k_max) rf rm.
  Proof.
    intros fuel k_min k_max lm0 lf lm rf rm H. apply (bisect_spec _ _ _ _ _ _ _ [] _ _ _ _) in H; [exact H| |].
    - left. split; [reflexivity|]. intros k0 t0 [].
    - left. split; [reflexivity|]. split; [reflexivity|]. intros k0 t0 [].
  Qed.

  (** The halvings are exact and their number is at most eighteen. *)
  Lemma bisect_ends : forall fuel j k_min k_max lf lm rf rm, (j + fuel = 18)%nat ->
    k_max - k_min = 9999 * 2 ^ Z.of_nat (18 - j) ->
    bisect fuel k_min k_max lf lm rf rm <> Exhausted.
  Proof.
    induction fuel as [|fuel IH]; intros j k_min k_max lf lm rf rm Hj Hd; cbn [DeadlineModel.bisect].
    - assert (j = 18)%nat by lia. subst j. change (2 ^ Z.of_nat (18 - 18)) with 1 in Hd. rewrite Hd. discriminate.
    - destruct (negb _); [discriminate|]. set (m := (k_min + k_max) / 2).
      assert (Hp : 2 ^ Z.of_nat (18 - j) = 2 * 2 ^ Z.of_nat (18 - S j)).
      { replace (18 - j)%nat with (S (18 - S j)) by lia. rewrite Nat2Z.inj_succ, Z.pow_succ_r by lia. reflexivity. }
      assert (Hm : m = k_min + 9999 * 2 ^ Z.of_nat (18 - S j)).
      { unfold m. replace (k_min + k_max) with ((k_min + 9999 * 2 ^ Z.of_nat (18 - S j)) * 2) by lia. apply Z.div_mul. lia. }
      destruct (fitness m []); [|discriminate]. destruct (_ <? _); destruct (_ <=? _); apply (IH (S j)); lia.
  Qed.

  Lemma probes_first fuel k_min k_max : (RESOLUTION <? 20 * (k_max - k_min)) = true ->
    In ((k_min + k_max) / 2) (probes (S fuel) k_min k_max).
  Proof. intros H. cbn [DeadlineModel.probes]. rewrite H. left. reflexivity. Qed.
  Lemma bisect_first fuel k_min k_max lf lm rf rm : (RESOLUTION <? 20 * (k_max - k_min)) = true ->
    fitness ((k_min + k_max) / 2) [] = None -> bisect (S fuel) k_min k_max lf lm rf rm = Failed.
  Proof. intros H E. cbn [DeadlineModel.bisect]. rewrite H, E. reflexivity. Qed.

  Lemma bisect_answers : (forall k spec, fitness k spec <> None) ->
    forall fuel k_min k_max lf lm rf rm, bisect fuel k_min k_max lf lm rf rm <> Failed.
  Proof.
    intros Hf. induction fuel as [|fuel IH]; intros k_min k_max lf lm rf rm; cbn [DeadlineModel.bisect]; [destruct (negb _); discriminate|].
    destruct (negb _); [discriminate|]. destruct (fitness _ []) eqn:E'; [|exfalso; eapply Hf; eauto].
    destruct (_ <? _); destruct (_ <=? _); apply IH.
  Qed.

  Lemma unset_set spec n : ~ In n spec -> unset_independent (set_independent spec n) n = spec.
  Proof.
    intros H. unfold unset_independent, set_independent. simpl. rewrite Nat.eqb_refl. simpl.
    induction spec as [|m spec IH]; simpl; [reflexivity|]. destruct (Nat.eqb_spec m n) as [->|]; [exfalso; apply H; left; reflexivity|].
    simpl. f_equal. apply IH. intros Hin. apply H. right. exact Hin.
  Qed.
  Lemma separate_spec : forall nodes tries spec spec', NoDup nodes -> (forall n, In n nodes -> ~ In n spec) ->
    (exists t, fitness K_MAX spec = Some t /\ t <= deadline) ->
    separate nodes tries spec = Some spec' ->
    (exists t, fitness K_MAX spec' = Some t /\ t <= deadline) /\ (forall n, In n spec' -> In n spec \/ In n nodes).
  Proof.
    induction nodes as [|n rest IH]; intros tries spec spec' Hnd Hni Ht; cbn [DeadlineModel.separate].
    - intros [= <-]. auto.
    - inversion Hnd as [|? ? N1 N2]; subst.
      destruct (fitness K_MAX (set_independent spec n)) as [t|] eqn:E; [|discriminate].
      rewrite unset_set by (apply Hni; left; reflexivity).
      destruct (Z.ltb_spec deadline t).
      + destruct (Nat.eqb (S tries) 3).
        * intros [= <-]. auto.
        * intros H'. destruct (IH _ _ _ N2 (fun x Hx => Hni x (or_intror Hx)) Ht H') as [A B]. split; [exact A|].
          intros x Hx. destruct (B x Hx); [left|right; right]; assumption.
      + intros H'. destruct (IH 0%nat (set_independent spec n) spec' N2) as [A B]; [|eauto|exact H'|].
        * intros x Hx [<-|Hin]; [contradiction|]. exact (Hni x (or_intror Hx) Hin).
        * split; [exact A|]. intros x Hx. destruct (B x Hx) as [[<-|H1]|H1]; [right; left; reflexivity|left; exact H1|right; right; exact H1].
  Qed.

  (** A monotone base scheduler: fewer workers (a larger k) never take less time. *)
  Hypothesis Hmono : forall k k' t t', K_MIN <= k <= k' -> k' <= K_MAX -> fitness k [] = Some t -> fitness k' [] = Some t' -> t <= t'.

  Lemma bisect_largest : forall fuel j k_min k_max lf lm rf rm lf' lm' rf' rm', (j + fuel = 18)%nat ->
    k_max - k_min = 9999 * 2 ^ Z.of_nat (18 - j) -> K_MIN <= k_min -> k_max <= K_MAX ->
    (lf = TIME_INF \/ lm = k_min /\ exists t, fitness lm [] = Some t /\ t <= deadline /\ lf = deadline - t) ->
    bisect fuel k_min k_max lf lm rf rm = Best lf' lm' rf' rm' ->
    (lf < TIME_INF -> lm <= lm') /\
    forall m t, In m (probes fuel k_min k_max) -> fitness m [] = Some t -> t <= deadline -> m <= lm'.
  Proof.
    induction fuel as [|fuel IH]; intros j k_min k_max lf lm rf rm lf' lm' rf' rm' Hj Hd Hk1 Hk2 HL H;
      cbn [DeadlineModel.bisect DeadlineModel.probes] in *.
    - destruct (negb _); [|discriminate]. injection H as <- <- <- <-. split; [lia|intros m t []].
    - destruct (negb _); [injection H as <- <- <- <-; split; [lia|intros m t []]|].
      assert (Hpw : 2 ^ Z.of_nat (18 - j) = 2 * 2 ^ Z.of_nat (18 - S j)).
      { replace (18 - j)%nat with (S (18 - S j)) by lia. rewrite Nat2Z.inj_succ, Z.pow_succ_r by lia. reflexivity. }
      assert (Hpos : 0 < 2 ^ Z.of_nat (18 - S j)) by (apply Z.pow_pos_nonneg; lia).
      set (m := (k_min + k_max) / 2) in *.
      assert (Hm : m = k_min + 9999 * 2 ^ Z.of_nat (18 - S j)).
      { unfold m. replace (k_min + k_max) with ((k_min + 9999 * 2 ^ Z.of_nat (18 - S j)) * 2) by lia. apply Z.div_mul. lia. }
      destruct (fitness m []) as [t|] eqn:E; [|discriminate]. assert (Ht := Htimes _ _ _ E).
      destruct (Z.ltb_spec deadline t) as [Hlt|Hge].
      + assert (K : exists rf1 rm1, bisect fuel k_min m lf lm rf1 rm1 = Best lf' lm' rf' rm') by (destruct (_ <=? _); eauto).
        destruct K as (rf1 & rm1 & K).
        destruct (IH (S j) k_min m _ _ _ _ _ _ _ _ ltac:(lia) ltac:(lia) Hk1 ltac:(lia) HL K) as [A B]. split; [exact A|].
        intros m0 t0 [<-|Hin] E0 Ht0; [|eauto]. assert (t0 = t) by congruence. lia.
      + assert (Hd' : (Z.abs (t - deadline) <=? lf) = true).
        { apply Z.leb_le. destruct HL as [->|(-> & t0 & E0 & Ht0 & ->)]; [lia|].
          assert (A := Hmono k_min m t0 t ltac:(lia) ltac:(lia) E0 E). lia. }
        rewrite Hd' in H.
        assert (HL' : Z.abs (t - deadline) = TIME_INF \/ m = m /\ exists t', fitness m [] = Some t' /\ t' <= deadline /\ Z.abs (t - deadline) = deadline - t').
        { right. split; [reflexivity|]. exists t. repeat split; [exact E|lia..]. }
        destruct (IH (S j) m k_max _ _ _ _ _ _ _ _ ltac:(lia) ltac:(lia) ltac:(lia) ltac:(lia) HL' H) as [A B].
        assert (Hml : m <= lm') by (apply A; lia).
        split.
        * intros Hlf. destruct HL as [->|(-> & _)]; [lia|]. lia.
        * intros m0 t0 [<-|Hin] E0 Ht0; [exact Hml|eauto].
  Qed.

  Lemma probes_monotone : forall fuel j k_min k_max, (j + fuel = 18)%nat ->
    k_max - k_min = 9999 * 2 ^ Z.of_nat (18 - j) -> K_MIN <= k_min -> k_max <= K_MAX ->
    (forall m, In m (probes fuel k_min k_max) -> fitness m [] <> None) ->
    (* everything from k_max on is too slow *)
    forall k, K_MIN <= k < k_max -> (exists t, fitness k [] = Some t /\ t <= deadline) ->
      k < k_min + RESOLUTION / 20 \/
      exists m, In m (probes fuel k_min k_max) /\ k < m + RESOLUTION / 20 /\ exists t, fitness m [] = Some t /\ t <= deadline.
  Proof.
    induction fuel as [|fuel IH]; intros j k_min k_max Hj Hd Hk1 Hk2 Hp k Hk (t & Et & Ht); cbn [DeadlineModel.probes] in *.
    - assert (j = 18)%nat by lia. subst j. change (2 ^ Z.of_nat (18 - 18)) with 1 in Hd. left. unfold RESOLUTION. change (262144 / 20) with 13107. lia.
    - destruct (negb (RESOLUTION <? 20 * (k_max - k_min))) eqn:En.
      { left. apply negb_true_iff, Z.ltb_ge in En. unfold RESOLUTION in *. change (262144 / 20) with 13107. lia. }
      set (m := (k_min + k_max) / 2) in *.
      assert (Hpw : 2 ^ Z.of_nat (18 - j) = 2 * 2 ^ Z.of_nat (18 - S j)).
      { replace (18 - j)%nat with (S (18 - S j)) by lia. rewrite Nat2Z.inj_succ, Z.pow_succ_r by lia. reflexivity. }
      assert (Hpos : 0 < 2 ^ Z.of_nat (18 - S j)) by (apply Z.pow_pos_nonneg; lia).
      assert (Hm : m = k_min + 9999 * 2 ^ Z.of_nat (18 - S j)).
      { unfold m. replace (k_min + k_max) with ((k_min + 9999 * 2 ^ Z.of_nat (18 - S j)) * 2) by lia. apply Z.div_mul. lia. }
      destruct (fitness m []) as [tm|] eqn:Em; [|exfalso; apply (Hp m); [left; reflexivity|exact Em]].
      destruct (Z.ltb_spec deadline tm) as [Hlt|Hge].
      + assert (Hkm : k < m).
        { destruct (Z.lt_ge_cases k m) as [|Hc]; [assumption|]. assert (A := Hmono m k tm t ltac:(lia) ltac:(lia) Em Et). lia. }
        destruct (IH (S j) k_min m ltac:(lia) ltac:(lia) Hk1 ltac:(lia) (fun x Hx => Hp x (or_intror Hx)) k ltac:(lia) ltac:(eauto)) as [H|(x & Hx & R)];
          [left; exact H|right; exists x; split; [right; exact Hx|exact R]].
      + destruct (IH (S j) m k_max ltac:(lia) ltac:(lia) ltac:(lia) Hk2 (fun x Hx => Hp x (or_intror Hx)) k ltac:(lia) ltac:(eauto)) as [H|(x & Hx & R)].
        * right. exists m. split; [left; reflexivity|]. split; [exact H|]. eauto.
        * right. exists x. split; [right; exact Hx|exact R].
  Qed.
End Proofs.

(** C42. The returned schedule is that of coefficient [k] and the works [spec] marked
    independent. [tried] are the coefficients that the bisection tries. *)
Notation tried fitness deadline := (probes fitness deadline 18 K_MIN K_MAX) (only parsing).

(** The deadline is met if the schedule with the fewest workers takes less than the
    deadline, and also if any of the coefficients tried meets it; then no coefficient
    tried comes closer to the deadline. If none of them meets it, the returned schedule is
    the fastest of those tried. *)
Theorem deadline_search_correct :
  forall fitness deadline nodes k spec,
    (forall k spec t, fitness k spec = Some t -> 0 <= t <= TIME_INF) -> 0 <= deadline < TIME_INF -> NoDup nodes ->
    schedule_to_deadline fitness deadline nodes = Some (k, spec) ->
    (exists t, fitness K_MAX [] = Some t /\ t < deadline /\ k = K_MAX /\ (forall n, In n spec -> In n nodes) /\
       exists t', fitness k spec = Some t' /\ t' <= deadline) \/
    (exists t, fitness K_MAX [] = Some t /\ deadline <= t /\ spec = [] /\
       exists tk, fitness k [] = Some tk /\ In k (tried fitness deadline) /\
         ((exists m tm, In m (tried fitness deadline) /\ fitness m [] = Some tm /\ tm <= deadline) ->
            tk <= deadline /\ forall m tm, In m (tried fitness deadline) -> fitness m [] = Some tm -> tm <= deadline -> tm <= tk) /\
         ((forall m tm, In m (tried fitness deadline) -> fitness m [] = Some tm -> deadline < tm) ->
            forall m tm, In m (tried fitness deadline) -> fitness m [] = Some tm -> tk <= tm)).
Proof.
  intros fitness deadline nodes k spec Ht Hd Hnd H. unfold schedule_to_deadline in H.
  destruct (fitness K_MAX []) as [t|] eqn:E; [|discriminate].
  destruct (Z.ltb_spec t deadline) as [Hlt|Hge].
  - left. exists t. split; [reflexivity|]. split; [exact Hlt|].
    destruct (separate fitness deadline nodes 0 []) as [sp|] eqn:Es; [|discriminate]. injection H as <- <-.
    split; [reflexivity|].
    destruct (separate_spec fitness deadline nodes 0 [] sp Hnd) as [A B]; [intros n _ []|exists t; split; [exact E|lia]|exact Es|].
    split; [|exact A]. intros n Hn. destruct (B n Hn) as [[]|Hn']. exact Hn'.
  - right. exists t. split; [reflexivity|]. split; [lia|].
    destruct (bisect fitness deadline 18 K_MIN K_MAX TIME_INF K_MAX TIME_INF K_MIN) as [| |lf lm rf rm] eqn:Eb; try discriminate.
    assert (I0 : 0 < TIME_INF) by (unfold TIME_INF; lia).
 destruct (bisect_spec0 fitness deadline Ht Hd 18 K_MIN K_MAX K_MAX lf lm rf rm Eb) as [HL HR].
    { set (T := probes fitness deadline 18 K_MIN K_MAX) in *. 
      destruct (Z.ltb_spec lf TIME_INF) as [Hl|Hl]; injection H as <- <-; split; try reflexivity.
      * destruct HL as [[-> _]|(_ & L2 & tk & L3 & L4 & L5 & L6)]; [lia|]. exists tk. split; [exact L3|]. split; [exact L2|]. split.
        -- intros _. split; [exact L4|exact L6].
        -- intros Hno. specialize (Hno lm tk L2 L3). lia.
      * destruct HL as [[_ HL]|(L1 & _)]; [|lia].
        (* at least one coefficient is tried *)
        assert (Hfirst : In ((K_MIN + K_MAX) / 2) T) by (apply (probes_first fitness deadline 17); reflexivity).
        clearbody T.
        assert (Hsome : exists tm, fitness ((K_MIN + K_MAX) / 2) [] = Some tm).
        { destruct (fitness ((K_MIN + K_MAX) / 2) []) eqn:E1; [eauto|]. rewrite (bisect_first fitness deadline 17) in Eb; [discriminate|reflexivity|exact E1]. }
        destruct Hsome as [t1 E1].
        destruct HR as [(R1 & R2 & R3)|(R1 & tk & R2 & R3 & R4 & R5)].
        -- exfalso. assert (A := HL _ _ Hfirst E1). assert (B := R3 _ _ Hfirst E1). lia.
        -- exists tk. split; [exact R2|]. split; [exact R1|]. split.
           ++ intros (m & tm & Hm & Em & Hle). specialize (HL m tm Hm Em). lia.
           ++ intros Hno m tm Hm Em. apply (R5 m tm Hm Em). eapply Hno; eauto. }
Qed.
Print Assumptions deadline_search_correct.

(** The search ends: it fails only if the base scheduler finds no schedule. *)
Theorem deadline_search_ends :
  forall fitness deadline nodes, (forall k spec, fitness k spec <> None) ->
    exists k spec, schedule_to_deadline fitness deadline nodes = Some (k, spec).
Proof.
  intros fitness deadline nodes Hf. unfold schedule_to_deadline.
  destruct (fitness K_MAX []) as [t|] eqn:E; [|exfalso; eapply Hf; eauto].
  destruct (t <? deadline).
  - assert (K : forall l tries spec, separate fitness deadline l tries spec <> None).
    { induction l as [|n rest IH]; intros tries spec; cbn [separate]; [discriminate|].
      destruct (fitness K_MAX (set_independent spec n)) eqn:E'; [|exfalso; eapply Hf; eauto].
      destruct (deadline <? z); [destruct (Nat.eqb (S tries) 3); [discriminate|apply IH]|apply IH]. }
    destruct (separate fitness deadline nodes 0 []) eqn:Es; [eauto|exfalso; eapply K; eauto].
  - destruct (bisect fitness deadline 18 K_MIN K_MAX TIME_INF K_MAX TIME_INF K_MIN) eqn:Eb.
    + exfalso. revert Eb. apply (bisect_ends fitness deadline 18 0); [lia|reflexivity].
    + exfalso. revert Eb. apply bisect_answers. exact Hf.
    + destruct (left_fit <? TIME_INF); eauto.
Qed.
Print Assumptions deadline_search_ends.

(** For a base scheduler that never gets faster with fewer workers, the search misses no
    solution by more than a twentieth: if some coefficient of at least 1.05 meets the
    deadline, the returned schedule meets it, and no coefficient larger by 0.05 than the
    returned one meets it. *)
Theorem deadline_search_complete :
  forall fitness deadline nodes k spec,
    (forall k spec t, fitness k spec = Some t -> 0 <= t <= TIME_INF) -> 0 <= deadline < TIME_INF -> NoDup nodes ->
    (forall k spec, fitness k spec <> None) ->
    (forall k k' t t', K_MIN <= k <= k' -> k' <= K_MAX -> fitness k [] = Some t -> fitness k' [] = Some t' -> t <= t') ->
    schedule_to_deadline fitness deadline nodes = Some (k, spec) ->
    forall x tx, K_MIN + RESOLUTION / 20 <= x <= K_MAX -> fitness x [] = Some tx -> tx <= deadline ->
      (exists t, fitness k spec = Some t /\ t <= deadline) /\ (x < k + RESOLUTION / 20).
Proof.
  intros fitness deadline nodes k spec Ht Hd Hnd Hall Hmono H x tx Hx Ex Hle.
  assert (Hpos : 0 < RESOLUTION / 20) by (vm_compute; reflexivity).
  destruct (deadline_search_correct fitness deadline nodes k spec Ht Hd Hnd H)
    as [(t & _ & _ & -> & _ & R)|(t & Et & Hge & -> & tk & Ek & Hk & Rin & _)].
  - split; [exact R|lia].
  - assert (K : exists m, In m (tried fitness deadline) /\ x < m + RESOLUTION / 20 /\ exists t, fitness m [] = Some t /\ t <= deadline).
    { (* if x = K_MAX, then the deadline is met exactly and all coefficients meet it *)
      destruct (Z.eq_dec x K_MAX) as [->|Hne].
      - destruct (probes_monotone fitness deadline Hmono 18 0 K_MIN K_MAX eq_refl eq_refl ltac:(lia) ltac:(lia) ltac:(intros; apply Hall) (K_MAX - 1))
          as [Hc|(m & Hm & Hx' & R)].
        + vm_compute. split; [discriminate|reflexivity].
        + destruct (fitness (K_MAX - 1) []) as [t1|] eqn:E1; [|exfalso; eapply Hall; eauto]. exists t1. split; [reflexivity|].
          assert (A := Hmono (K_MAX - 1) K_MAX t1 tx ltac:(vm_compute; split; discriminate) ltac:(lia) E1 Ex). lia.
        + exfalso. vm_compute in Hc. discriminate.
        + (* the last coefficient tried is closer to K_MAX than that *)
          exists m. split; [exact Hm|]. split; [|exact R].
          assert (Hpar : forall fuel j a b, (j + fuel = 18)%nat -> b - a = 9999 * 2 ^ Z.of_nat (18 - j) ->
             forall y, In y (probes fitness deadline fuel a b) -> exists q, y = a + 9999 * q).
          { induction fuel as [|fuel IH]; intros j a b Hj Hab y Hy; cbn [probes] in Hy; [destruct (negb _) in Hy; destruct Hy|].
            destruct (negb _) in Hy; [destruct Hy|].
            assert (Hpw : 2 ^ Z.of_nat (18 - j) = 2 * 2 ^ Z.of_nat (18 - S j)).
            { replace (18 - j)%nat with (S (18 - S j)) by lia. rewrite Nat2Z.inj_succ, Z.pow_succ_r by lia. reflexivity. }
            assert (Hm' : (a + b) / 2 = a + 9999 * 2 ^ Z.of_nat (18 - S j)).
            { replace (a + b) with ((a + 9999 * 2 ^ Z.of_nat (18 - S j)) * 2) by lia. apply Z.div_mul. lia. }
            destruct Hy as [<-|Hy]; [eauto|]. destruct (fitness ((a + b) / 2) []) as [t0|]; [|destruct Hy].
            destruct (deadline <? t0).
            - apply (IH (S j) a ((a + b) / 2) ltac:(lia) ltac:(lia) y Hy).
            - destruct (IH (S j) ((a + b) / 2) b ltac:(lia) ltac:(lia) y Hy) as [q Hq]. rewrite Hm' in Hq.
              exists (2 ^ Z.of_nat (18 - S j) + q). lia. }
          destruct (Hpar 18%nat 0%nat K_MIN K_MAX eq_refl eq_refl m Hm) as [q Hq].
          unfold K_MAX, K_MIN, RESOLUTION in *. change (262144 / 20) with 13107 in *. lia.
      - destruct (probes_monotone fitness deadline Hmono 18 0 K_MIN K_MAX eq_refl eq_refl ltac:(lia) ltac:(lia) ltac:(intros; apply Hall) x)
          as [Hc|R]; [lia|eauto|lia|exact R]. }
    destruct K as (m & Hm & Hxm & tm & Em & Htm).
    destruct (Rin ltac:(exists m, tm; auto)) as [Hk1 Hk2].
    split; [exists tk; auto|].
    (* the coefficient returned is the largest of those tried that meet the deadline *)
    unfold schedule_to_deadline in H. rewrite Et in H. destruct (Z.ltb_spec t deadline) as [|_]; [lia|].
    destruct (bisect fitness deadline 18 K_MIN K_MAX TIME_INF K_MAX TIME_INF K_MIN) as [| |lf lm rf rm] eqn:Eb; try discriminate.
    destruct (bisect_largest fitness deadline Ht Hd Hmono 18 0 K_MIN K_MAX _ _ _ _ _ _ _ _ eq_refl eq_refl ltac:(lia) ltac:(lia) (or_introl eq_refl) Eb) as [_ HB].
    destruct (Z.ltb_spec lf TIME_INF) as [Hl|Hl]; injection H as ->.
    + assert (A := HB m tm Hm Em Htm). lia.
    + destruct (bisect_spec0 fitness deadline Ht Hd 18 K_MIN K_MAX K_MAX lf lm rf k Eb) as [HL _]. destruct HL as [[_ HL]|(L1 & _)]; [|lia].
      specialize (HL m tm Hm Em). lia.
Qed.
Print Assumptions deadline_search_complete.

(** A scheduler whose times grow with the coefficient; marking the second work costs 400. *)
Definition example_fitness (k : Z) (spec : list nat) : option Z :=
  Some (100 + k / RESOLUTION / 10 + (if existsb (Nat.eqb 1) spec then 400 else 0) + 3 * Z.of_nat (length spec)).
(** Loose deadline: the works whose separation still fits are separated. Tight deadline:
    the search stops just below the coefficient 510, the largest that meets it. *)
Example deadline_search_example :
  schedule_to_deadline example_fitness 1200 [0; 1; 2]%nat = Some (K_MAX, [2; 0]%nat) /\
  (exists k, schedule_to_deadline example_fitness 150 [0; 1; 2]%nat = Some (k, []) /\
     509 * RESOLUTION < k < 510 * RESOLUTION /\ example_fitness k [] = Some 150 /\ length (tried example_fitness 150) = 18%nat).
Proof.
  split; [vm_compute; reflexivity|].
  destruct (schedule_to_deadline example_fitness 150 [0; 1; 2]%nat) as [[k sp]|] eqn:E; [|vm_compute in E; discriminate].
  vm_compute in E. injection E as <- <-. eexists. split; [reflexivity|]. vm_compute. repeat split; reflexivity.
Qed.
Example deadline_search_hypotheses :
  (forall k k' t t', K_MIN <= k <= k' -> k' <= K_MAX -> example_fitness k [] = Some t -> example_fitness k' [] = Some t' -> t <= t') /\
  (forall k spec, example_fitness k spec <> None).
Proof.
  split; [|intros k spec; discriminate].
  intros k k' t t' [_ Hk] _ E E'. unfold example_fitness in E, E'. 
  assert (I : forall a b : Z, Some a = Some b -> a = b) by congruence. apply I in E, E'. subst t t'.
  assert (k / RESOLUTION <= k' / RESOLUTION) by (apply Z.div_le_mono; [reflexivity|exact Hk]).
  assert (k / RESOLUTION / 10 <= k' / RESOLUTION / 10) by (apply Z.div_le_mono; [reflexivity|assumption]).
  lia.
Qed.

(** Finding: a schedule with the fewest workers that meets the deadline exactly does not
    count. If the base scheduler is not monotone, the returned schedule can miss a
    deadline that the first schedule tried meets. *)
Theorem exact_deadline_missed :
  exists fitness deadline nodes k,
    fitness K_MAX [] = Some deadline /\
    schedule_to_deadline fitness deadline nodes = Some (k, []) /\
    exists t, fitness k [] = Some t /\ deadline < t.
Proof.
  exists (fun k _ => Some (if k =? K_MAX then 100 else 101)), 100, [], (K_MIN + 9999).
  split; [reflexivity|]. split; [vm_compute; reflexivity|]. exists 101. split; [vm_compute; reflexivity|lia].
Qed.
Print Assumptions exact_deadline_missed.

(** Finding: if the teams that the first coefficient asks for do not exist, the search
    fails, although another coefficient meets the deadline. *)
Theorem deadline_search_fails :
  exists fitness deadline nodes k t,
    K_MIN <= k <= K_MAX /\ fitness k [] = Some t /\ t <= deadline /\
    schedule_to_deadline fitness deadline nodes = None.
Proof.
  exists (fun k _ => if k =? K_MAX then None else Some 1), 100, [], K_MIN, 1.
  split; [vm_compute; split; discriminate|]. split; [vm_compute; reflexivity|]. split; [lia|]. vm_compute. reflexivity.
Qed.
Print Assumptions deadline_search_fails.
