(** C28: the genetic operators on resources keep chromosomes valid. *)
From Coq Require Import ZArith List Bool Lia Arith Permutation ZifyBool ZifyNat.
From Verif Require Import TopoModel TopoProofs GeneticResModel.
Import ListNotations.
Local Open Scope Z_scope.

(** Amounts are compared per profession; both lists have the same professions. *)
Definition within (a b : list Z) : Prop := Forall2 Z.le a b.
(** A row is valid for work [w]: amounts between the work's limits, within the border of a
    contractor available for the work. *)
Definition row_valid (lows ups : nat -> list Z) (avail : nat -> list nat) (borders : list (list Z)) (w : nat) (r : row) : Prop :=
  within (lows w) (fst r) /\ within (fst r) (ups w) /\ In (snd r) (avail w) /\ (snd r < length borders)%nat /\
  within (fst r) (nth (snd r) borders []).
Definition rows_valid lows ups avail borders (rows : list row) : Prop :=
  forall w r, nth_error rows w = Some r -> row_valid lows ups avail borders w r.
(** Borders of contractors stay within what the contractors have. *)
Definition borders_valid (cborders borders : list (list Z)) : Prop :=
  Forall2 within borders cborders.

(** ** Lists *)
Lemma sequence_map {A B} (f : A -> option B) l : (forall x, In x l -> exists y, f x = Some y) ->
  exists r, sequence (map f l) = Some r /\ Forall2 (fun x y => f x = Some y) l r.
Proof.
  induction l as [|x l IH]; intros H; [exists []; split; [reflexivity|constructor]|].
  destruct (H x (or_introl eq_refl)) as [y Hy]. destruct IH as (r & E & F); [intros; apply H; right; assumption|].
  exists (y :: r). simpl. rewrite Hy, E. split; [reflexivity|constructor; assumption].
Qed.
Lemma indexed_nth {A} (l : list A) i : nth_error (indexed l) i = option_map (fun x => (i, x)) (nth_error l i).
Proof.
  unfold indexed. assert (H : forall s, nth_error (combine (seq s (length l)) l) i = option_map (fun x => ((s + i)%nat, x)) (nth_error l i)); [|apply H].
  revert i. induction l as [|a l IH]; intros [|i] s; simpl; try reflexivity; [rewrite Nat.add_0_r; reflexivity|].
  rewrite IH. replace (S s + i)%nat with (s + S i)%nat by lia. reflexivity.
Qed.
Lemma indexed_in {A} (l : list A) i x : In (i, x) (indexed l) <-> nth_error l i = Some x.
Proof.
  split.
  - intros H. apply In_nth_error in H as [k Hk]. rewrite indexed_nth in Hk. destruct (nth_error l k) eqn:E; simpl in Hk; congruence.
  - intros H. apply (nth_error_In _ i). rewrite indexed_nth, H. reflexivity.
Qed.
Lemma indexed_length {A} (l : list A) : length (indexed l) = length l.
Proof. unfold indexed. rewrite combine_length, seq_length. lia. Qed.
Lemma forall2_nth {A B} (P : A -> B -> Prop) l1 l2 : Forall2 P l1 l2 -> forall i y, nth_error l2 i = Some y -> exists x, nth_error l1 i = Some x /\ P x y.
Proof. induction 1; intros [|i] z Hz; simpl in *; try discriminate; [injection Hz as <-; eauto|auto]. Qed.
Lemma forall2_length {A B} (P : A -> B -> Prop) l1 l2 : Forall2 P l1 l2 -> length l1 = length l2.
Proof. induction 1; simpl; congruence. Qed.
(** mapping every indexed element *)
Lemma sequence_indexed {A} (f : nat -> A -> option A) (P : nat -> A -> A -> Prop) l :
  (forall i x, nth_error l i = Some x -> exists y, f i x = Some y /\ P i x y) ->
  exists r, sequence (map (fun x => f (fst x) (snd x)) (indexed l)) = Some r /\ length r = length l /\
    forall i y, nth_error r i = Some y -> exists x, nth_error l i = Some x /\ P i x y.
Proof.
  intros H. destruct (sequence_map (fun x => f (fst x) (snd x)) (indexed l)) as (r & E & F).
  { intros [i x] Hx. apply indexed_in in Hx. destruct (H i x Hx) as (y & Hy & _). eauto. }
  exists r. split; [exact E|]. split; [rewrite <- (forall2_length _ _ _ F); apply indexed_length|].
  intros i y Hy. destruct (forall2_nth _ _ _ F i y Hy) as ([k x] & Hk & Hf). rewrite indexed_nth in Hk. cbn [fst snd] in Hf.
  destruct (nth_error l i) as [x'|] eqn:Ex; simpl in Hk; [|discriminate]. injection Hk as <- <-.
  exists x'. split; [reflexivity|]. destruct (H i x' Ex) as (y' & Hy' & HP). congruence.
Qed.

Lemma within_leq a b : length a = length b -> (leq_all a b = true <-> within a b).
Proof.
  unfold leq_all, within. revert b. induction a as [|x a IH]; intros [|y b] H; simpl in *; try discriminate; [split; [constructor|reflexivity]|].
  rewrite andb_true_iff, IH by lia. split; [intros [H1 H2]; constructor; [lia|exact H2]|].
  intros G. inversion G; subst. split; [lia|assumption].
Qed.
Lemma within_refl a : within a a. Proof. induction a; constructor; [lia|assumption]. Qed.
Lemma within_trans a b c : within a b -> within b c -> within a c.
Proof. intros H. revert c. induction H; intros c G; inversion G; subst; constructor; [lia|]. apply IHForall2. assumption. Qed.
Lemma within_length a b : within a b -> length a = length b.
Proof. apply forall2_length. Qed.
Lemma zip_min_within a u v : within a u -> within a v -> within a (zip Z.min u v).
Proof. intros H. revert v. induction H; intros v G; inversion G; subst; simpl; constructor; [lia|]. apply IHForall2. assumption. Qed.
Lemma zip_min_below u : forall v, length u = length v -> within (zip Z.min u v) u /\ within (zip Z.min u v) v.
Proof.
  induction u as [|x u IH]; intros [|y v] H; simpl in *; try discriminate; [split; constructor|].
  destruct (IH v ltac:(lia)). split; constructor; auto; lia.
Qed.
Lemma zip_max_above u : forall v, length u = length v -> within u (zip Z.max u v) /\ within v (zip Z.max u v).
Proof.
  induction u as [|x u IH]; intros [|y v] H; simpl in *; try discriminate; [split; constructor|].
  destruct (IH v ltac:(lia)). split; constructor; auto; lia.
Qed.
Lemma zip_max_within u : forall v b, within u b -> within v b -> within (zip Z.max u v) b.
Proof.
  induction u as [|x u IH]; intros v b H G; inversion H; subst; inversion G; subst; simpl; constructor; [lia|]. apply IH; assumption.
Qed.

(** ** One row *)
Lemma zrange_in a b x : In x (zrange a b) <-> a <= x < b.
Proof.
  unfold zrange. rewrite in_map_iff. split.
  - intros (k & <- & H). apply in_seq in H. lia.
  - intros H. exists (Z.to_nat (x - a)). split; [lia|]. apply in_seq. lia.
Qed.
Lemma mutate_row_spec sel pick : (forall k l, l <> [] -> In (pick k l) l) ->
  forall amounts k lows ups, within lows amounts -> within amounts ups ->
  exists r, mutate_row sel pick k amounts lows ups = Some r /\ within lows r /\ within r ups.
Proof.
  intros Hp. induction amounts as [|a amounts IH]; intros k lows ups H1 H2; inversion H1 as [|l ? lows' ? Hl H1']; subst; inversion H2 as [|? u ? ups' Hu H2']; subst; cbn [mutate_row].
  { exists []. repeat split; constructor. }
  destruct (IH (S k) lows' ups' H1' H2') as (r & -> & R1 & R2).
  destruct (sel k && negb (u =? l)) eqn:E.
  - set (ch := zrange l a ++ zrange (a + 1) (u + 1)).
    assert (Hne : ch <> []).
    { intros Hc. destruct (Z.eq_dec l a) as [Eq|Nq].
      - assert (Hin : In u ch) by (unfold ch; apply in_or_app; right; apply zrange_in; lia). rewrite Hc in Hin. destruct Hin.
      - assert (Hin : In l ch) by (unfold ch; apply in_or_app; left; apply zrange_in; lia). rewrite Hc in Hin. destruct Hin. }
    assert (Hin := Hp k ch Hne).
    assert (Hb : l <= pick k ch <= u) by (unfold ch at 2 in Hin; apply in_app_iff in Hin as [H|H]; apply zrange_in in H; lia).
    clearbody ch. destruct ch as [|c0 ch']; [congruence|]. exists (pick k (c0 :: ch') :: r). split; [reflexivity|]. split; constructor; try assumption; lia.
  - exists (a :: r). split; [reflexivity|]. split; constructor; assumption.
Qed.

(** ** Mutation of resources *)
(** All border rows have the same professions. *)
Definition shaped (n : nat) (borders : list (list Z)) : Prop := forall b, In b borders -> length b = n.

(** For every draw of contractors and amounts the mutated rows are valid again. *)
Theorem resource_mutation_correct :
  forall cc_sel cc_pick sel pick lows ups avail n borders rows,
    (forall w l, l <> [] -> In (cc_pick w l) l) -> (forall w k l, l <> [] -> In (pick w k l) l) ->
    shaped n borders -> (forall w c, In c (avail w) -> (c < length borders)%nat) ->
    rows_valid lows ups avail borders rows ->
    exists rows', mutate_resources cc_sel cc_pick sel pick lows ups avail borders rows = Some rows' /\
      length rows' = length rows /\ rows_valid lows ups avail borders rows'.
Proof.
  intros cc_sel cc_pick sel pick lows ups avail n borders rows Hcp Hp Hsh Hav Hv. unfold mutate_resources.
  destruct (sequence_indexed (mutate_contractor cc_sel cc_pick avail borders) (fun w _ r' => row_valid lows ups avail borders w r') rows)
    as (rows1 & E1 & L1 & V1).
  { intros w r Hr. assert (Hrv := Hv w r Hr). unfold mutate_contractor. destruct (_ && _); [|eauto].
    destruct Hrv as (A1 & A2 & A3 & A4 & A5). destruct (avail w) as [|c0 l] eqn:Ea; [destruct A3|].
    set (c := cc_pick w (c0 :: l)). assert (Hc : In c (avail w)) by (rewrite Ea; apply Hcp; discriminate).
    destruct (leq_all (fst r) (nth c borders [])) eqn:El; eexists; (split; [reflexivity|]).
    - assert (Hcl : (c < length borders)%nat) by (apply (Hav w); exact Hc). split; [exact A1|]. split; [exact A2|]. split; [exact Hc|]. split; [exact Hcl|].
      apply within_leq; [|exact El]. cbn [fst]. rewrite (within_length _ _ A5). rewrite !Hsh; auto; apply nth_In; assumption.
    - unfold row_valid. rewrite Ea. auto. }
  rewrite E1.
  destruct (sequence_indexed (mutate_amounts sel pick lows ups borders) (fun w _ r' => row_valid lows ups avail borders w r') rows1)
    as (rows2 & E2 & L2 & V2).
  { intros w r Hr. destruct (V1 w r Hr) as (r0 & Hr0 & A1 & A2 & A3 & A4 & A5). unfold mutate_amounts.
    assert (Hlen : length (ups w) = length (nth (snd r) borders [])) by (rewrite <- (within_length _ _ A2); apply within_length; exact A5).
    destruct (zip_min_below (ups w) (nth (snd r) borders []) Hlen) as [Z1 Z2].
    destruct (mutate_row_spec (sel w) (pick w) (Hp w) (fst r) 0 (lows w) (zip Z.min (ups w) (nth (snd r) borders [])) A1 (zip_min_within _ _ _ A2 A5))
      as (a & Ea & B1 & B2). rewrite Ea. eexists. split; [reflexivity|]. unfold row_valid. cbn [fst snd].
    split; [exact B1|]. split; [eapply within_trans; eauto|]. split; [exact A3|]. split; [exact A4|]. eapply within_trans; eauto. }
  exists rows2. split; [exact E2|]. split; [congruence|]. intros w r Hr. destruct (V2 w r Hr) as (_ & _ & H). exact H.
Qed.
Print Assumptions resource_mutation_correct.

(** ** Largest amounts of a contractor *)
Lemma fold_max_spec n l : forall r, length r = n -> (forall x, In x l -> length x = n) ->
  length (fold_left (zip Z.max) l r) = n /\ within r (fold_left (zip Z.max) l r) /\ (forall x, In x l -> within x (fold_left (zip Z.max) l r)) /\
  (forall b, within r b -> (forall x, In x l -> within x b) -> within (fold_left (zip Z.max) l r) b).
Proof.
  induction l as [|y l IH]; intros r Hr Hl; simpl.
  - split; [exact Hr|]. split; [apply within_refl|]. split; [intros x []|auto].
  - assert (Hy := Hl y (or_introl eq_refl)). destruct (zip_max_above r y ltac:(lia)) as [U1 U2].
    destruct (IH (zip Z.max r y)) as (I1 & I2 & I3 & I4).
    + rewrite <- (within_length _ _ U1). exact Hr.
    + intros; apply Hl; right; assumption.
    + split; [exact I1|]. split; [eapply within_trans; eauto|]. split.
      * intros x [<-|H]; [eapply within_trans; eauto|auto].
      * intros b Hb G. apply I4; [|intros; apply G; right; assumption]. apply zip_max_within; [exact Hb|]. apply G. left. reflexivity.
Qed.
Lemma column_max_spec n l : l <> [] -> (forall x, In x l -> length x = n) ->
  length (column_max l) = n /\ (forall x, In x l -> within x (column_max l)) /\
  (forall b, (forall x, In x l -> within x b) -> within (column_max l) b).
Proof.
  intros Hne Hl. destruct l as [|r l]; [congruence|]. cbn [column_max].
  destruct (fold_max_spec n l r (Hl r (or_introl eq_refl)) (fun x H => Hl x (or_intror H))) as (I1 & I2 & I3 & I4).
  split; [exact I1|]. split; [intros x [<-|H]; auto|]. intros b H. apply I4; [apply H; left; reflexivity|intros; apply H; right; assumption].
Qed.
Lemma rows_of_in c rows a : In a (rows_of c rows) <-> In (a, c) rows.
Proof.
  unfold rows_of. rewrite in_map_iff. split.
  - intros ([a' c'] & <- & H). apply filter_In in H as [H E]. apply Nat.eqb_eq in E. simpl in *. subst. exact H.
  - intros H. exists (a, c). split; [reflexivity|]. apply filter_In. split; [exact H|]. apply Nat.eqb_refl.
Qed.
Lemma contractors_in_spec c rows : In c (contractors_in rows) <-> exists a, In (a, c) rows.
Proof.
  unfold contractors_in. rewrite nodup_In, in_map_iff. split.
  - intros ([a c'] & <- & H). eauto.
  - intros (a & H). exists (a, c). auto.
Qed.
Lemma rows_of_nonempty c rows : In c (contractors_in rows) -> rows_of c rows <> [].
Proof. intros H E. apply contractors_in_spec in H as (a & H). apply rows_of_in in H. rewrite E in H. destruct H. Qed.

(** The check accepts exactly the chromosomes whose contractors are all allowed, whose rows
    stay within the borders of their contractors, and the borders of used contractors
    within the real ones. *)
Theorem contractors_check_exact :
  forall enabled n cborders order rows borders,
    rows <> [] -> (forall r, In r rows -> length (fst r) = n /\ (snd r < length borders)%nat) ->
    shaped n borders -> shaped n cborders -> length borders = length cborders ->
    (contractors_correct enabled cborders order rows borders = true <->
     (forall w, In w order -> enabled w (snd (nth w rows ([], 0%nat))) = true) /\
     (forall a c, In (a, c) rows -> within a (nth c borders []) /\ within (nth c borders []) (nth c cborders []))).
Proof.
  intros enabled n cborders order rows borders Hne Hr Hsb Hsc Hlen. unfold contractors_correct.
  destruct rows as [|r0 rs] eqn:Er; [congruence|]. rewrite <- Er in *. clear Hne.
  rewrite !andb_true_iff, !forallb_forall.
  assert (Hb : forall a c, In (a, c) rows -> length (nth c borders []) = n /\ length (nth c cborders []) = n).
  { intros a c H. destruct (Hr _ H) as [_ Hc]. cbn [snd] in Hc. split; [apply Hsb|apply Hsc]; apply nth_In; lia. }
  assert (Hm : forall c, In c (contractors_in rows) -> length (column_max (rows_of c rows)) = n /\ (forall x, In x (rows_of c rows) -> within x (column_max (rows_of c rows))) /\
     (forall b, (forall x, In x (rows_of c rows) -> within x b) -> within (column_max (rows_of c rows)) b)).
  { intros c H. apply column_max_spec; [apply rows_of_nonempty; exact H|]. intros x Hx. apply rows_of_in in Hx. apply (Hr _ Hx). }
  split.
  - intros (H1 & H2 & H3). split; [exact H1|]. intros a c Hin.
    assert (Hc : In c (contractors_in rows)) by (apply contractors_in_spec; eauto). destruct (Hm c Hc) as (M1 & M2 & M3). destruct (Hb a c Hin) as [B1 B2].
    specialize (H2 c Hc). specialize (H3 c Hc). apply within_leq in H2; [|lia]. apply within_leq in H3; [|lia].
    split; [|exact H3]. eapply within_trans; [apply M2, rows_of_in; exact Hin|exact H2].
  - intros (H1 & H2). split; [exact H1|]. split; intros c Hc; destruct (Hm c Hc) as (M1 & M2 & M3);
      destruct (proj1 (contractors_in_spec c rows) Hc) as (a & Ha); destruct (Hb a c Ha) as [B1 B2].
    + apply within_leq; [lia|]. apply M3. intros x Hx. apply rows_of_in in Hx. apply (H2 x c Hx).
    + apply within_leq; [lia|]. apply (H2 a c Ha).
Qed.
Print Assumptions contractors_check_exact.

(** ** Mutation of borders *)
Theorem border_mutation_correct :
  forall sel pick lows ups avail n cborders rows borders,
    (forall c k l, l <> [] -> In (pick c k l) l) ->
    shaped n borders -> borders_valid cborders borders -> rows_valid lows ups avail borders rows ->
    exists borders', mutate_borders sel pick cborders rows borders = Some borders' /\ length borders' = length borders /\
      borders_valid cborders borders' /\ rows_valid lows ups avail borders' rows.
Proof.
  intros sel pick lows ups avail n cborders rows borders Hp Hsh Hbv Hv. unfold mutate_borders.
  assert (Hrow : forall a c, In (a, c) rows -> (c < length borders)%nat /\ within a (nth c borders [])).
  { intros a c H. apply In_nth_error in H as [w Hw]. destruct (Hv w _ Hw) as (_ & _ & _ & H4 & H5). auto. }
  assert (Hcb : forall c b, nth_error borders c = Some b -> within b (nth c cborders [])).
  { clear -Hbv. induction Hbv as [|b cb bs cbs H F IH]; intros [|c] b' E; simpl in *; try discriminate; [injection E as <-; exact H|apply IH; exact E]. }
  set (f := fun c b => if mem c (contractors_in rows)
    then mutate_row (sel c) (pick c) 0 b (column_max (rows_of c rows)) (nth c cborders []) else Some b).
  destruct (sequence_indexed f (fun c b b' => within b' (nth c cborders []) /\ forall a, In (a, c) rows -> within a b') borders) as (bs' & E & L & V).
  { intros c b Hb. unfold f. assert (Hnth : nth c borders [] = b) by (apply nth_error_nth; exact Hb).
    destruct (mem c (contractors_in rows)) eqn:Em.
    - apply mem_in in Em. destruct (column_max_spec n (rows_of c rows)) as (M1 & M2 & M3).
      + apply rows_of_nonempty. exact Em.
      + intros x Hx. apply rows_of_in in Hx. destruct (Hrow x c Hx) as [R1 R2]. rewrite (within_length _ _ R2). apply Hsh. apply nth_In. exact R1.
      + destruct (mutate_row_spec (sel c) (pick c) (Hp c) b 0 (column_max (rows_of c rows)) (nth c cborders [])) as (r & Er & R1 & R2).
        * apply M3. intros x Hx. apply rows_of_in in Hx. rewrite <- Hnth. apply (Hrow x c Hx).
        * apply Hcb. exact Hb.
        * exists r. split; [exact Er|]. split; [exact R2|]. intros a Ha. eapply within_trans; [apply M2, rows_of_in; exact Ha|exact R1].
    - exists b. split; [reflexivity|]. split; [apply Hcb; exact Hb|]. intros a Ha. rewrite <- Hnth. apply (Hrow a c Ha). }
  change (map (fun x => if mem (fst x) (contractors_in rows) then _ else _) (indexed borders)) with (map (fun x => f (fst x) (snd x)) (indexed borders)).
  exists bs'. split; [exact E|]. split; [exact L|]. split.
  - assert (Hl2 : length bs' = length cborders) by (rewrite L; apply (forall2_length _ _ _ Hbv)).
    assert (G : forall c b', nth_error bs' c = Some b' -> within b' (nth c cborders [])) by (intros c b' H; destruct (V c b' H) as (? & _ & H1 & _); exact H1).
    clear -Hl2 G. revert cborders Hl2 G. induction bs' as [|b bs IH]; intros [|cb cbs] Hl2 G; simpl in Hl2; try discriminate; constructor.
    + apply (G 0%nat b eq_refl).
    + apply IH; [lia|]. intros c b' H. apply (G (S c) b' H).
  - intros w r Hr. destruct (Hv w r Hr) as (A1 & A2 & A3 & A4 & A5). split; [exact A1|]. split; [exact A2|]. split; [exact A3|]. split; [lia|].
    assert (Hx : nth_error bs' (snd r) = Some (nth (snd r) bs' [])) by (apply nth_error_nth'; lia).
    destruct (V _ _ Hx) as (_ & _ & _ & H). apply H. destruct r as [a c]. eapply nth_error_In. exact Hr.
Qed.
Print Assumptions border_mutation_correct.

(** ** Crossover *)
Lemma swap_nth swapped r1 r2 w r : length r1 = length r2 -> nth_error (swap_rows swapped r1 r2) w = Some r ->
  if swapped w then nth_error r2 w = Some r else nth_error r1 w = Some r.
Proof.
  intros Hl H. unfold swap_rows in H. rewrite nth_error_map, indexed_nth in H.
  destruct (nth_error (combine r1 r2) w) as [[x y]|] eqn:E; simpl in H; [|discriminate]. injection H as <-.
  assert (G : nth_error r1 w = Some x /\ nth_error r2 w = Some y).
  { clear -E. revert w r2 E. induction r1 as [|a r1 IH]; intros [|w] [|b r2] E; simpl in *; try discriminate; [injection E as <- <-; auto|apply IH; exact E]. }
  destruct (swapped w); apply G.
Qed.
Lemma swap_length swapped r1 r2 : length r1 = length r2 -> length (swap_rows swapped r1 r2) = length r1.
Proof. intros H. unfold swap_rows. rewrite map_length, indexed_length, combine_length. lia. Qed.
Lemma mated_in swapped rows c : In c (mated_contractors swapped rows) <-> exists w a, swapped w = true /\ nth_error rows w = Some (a, c).
Proof.
  unfold mated_contractors. rewrite in_map_iff. split.
  - intros ([w [a c']] & <- & H). apply filter_In in H as [H Hs]. apply indexed_in in H. exists w, a. auto.
  - intros (w & a & Hs & H). exists (w, (a, c)). split; [reflexivity|]. apply filter_In. split; [apply indexed_in; exact H|exact Hs].
Qed.
Lemma raise_nth cs own b1 b2 c b : nth_error own c = Some b ->
  nth_error (raise_borders cs own b1 b2) c = Some (if mem c cs then zip Z.max (nth c b1 []) (nth c b2 []) else b).
Proof. intros H. unfold raise_borders. rewrite nth_error_map, indexed_nth, H. reflexivity. Qed.
Lemma raise_length cs own b1 b2 : length (raise_borders cs own b1 b2) = length own.
Proof. unfold raise_borders. rewrite map_length. apply indexed_length. Qed.

(** Crossover of resources: for every set of swapped works both children are valid, when
    the borders are raised or the parents have equal borders. *)
Theorem resource_crossover_correct :
  forall swapped optimize lows ups avail n cborders r1 b1 r2 b2 r1' b1' r2' b2',
    length r1 = length r2 -> shaped n b1 -> shaped n b2 -> length b1 = length b2 -> (optimize = true \/ b1 = b2) ->
    rows_valid lows ups avail b1 r1 -> rows_valid lows ups avail b2 r2 ->
    borders_valid cborders b1 -> borders_valid cborders b2 ->
    mate_resources swapped optimize r1 b1 r2 b2 = ((r1', b1'), (r2', b2')) ->
    rows_valid lows ups avail b1' r1' /\ rows_valid lows ups avail b2' r2' /\
    borders_valid cborders b1' /\ borders_valid cborders b2' /\
    (forall w, nth_error r1' w = (if swapped w then nth_error r2 w else nth_error r1 w)) /\
    (forall w, nth_error r2' w = (if swapped w then nth_error r1 w else nth_error r2 w)).
Proof.
  intros swapped optimize lows ups avail n cborders r1 b1 r2 b2 r1' b1' r2' b2' Hlr Hs1 Hs2 Hlb Hopt V1 V2 B1 B2 H.
  assert (Hrows : r1' = swap_rows swapped r1 r2 /\ r2' = swap_rows swapped r2 r1) by (unfold mate_resources in H; destruct optimize; injection H as <- _ <- _; auto).
  destruct Hrows as [-> ->].
  assert (Hnth : forall a b, length a = length b -> forall w, nth_error (swap_rows swapped a b) w = (if swapped w then nth_error b w else nth_error a w)).
  { intros a b Hl w. destruct (nth_error (swap_rows swapped a b) w) as [r|] eqn:E; [apply swap_nth in E; [|exact Hl]; destruct (swapped w); auto|].
    apply nth_error_None in E. rewrite swap_length in E by exact Hl. symmetry. destruct (swapped w); apply nth_error_None; lia. }
  cut (rows_valid lows ups avail b1' (swap_rows swapped r1 r2) /\ rows_valid lows ups avail b2' (swap_rows swapped r2 r1) /\
       borders_valid cborders b1' /\ borders_valid cborders b2').
  { intros (C1 & C2 & C3 & C4). repeat (split; [assumption|]). split; apply Hnth; auto. }
  assert (Hlen1 : forall c, (c < length b1)%nat -> length (nth c b1 []) = n) by (intros; apply Hs1, nth_In; assumption).
  assert (Hlen2 : forall c, (c < length b2)%nat -> length (nth c b2 []) = n) by (intros; apply Hs2, nth_In; assumption).
  unfold mate_resources in H. destruct optimize.
  2: { destruct Hopt as [|<-]; [discriminate|]. injection H as <- <-. split; [|split; [|split; assumption]].
       - intros w r Hr. apply swap_nth in Hr; [|exact Hlr]. destruct (swapped w); [apply V2|apply V1]; exact Hr.
       - intros w r Hr. apply swap_nth in Hr; [|auto]. destruct (swapped w); [apply V1|apply V2]; exact Hr. }
  cbv zeta in H. set (c1 := mated_contractors swapped (swap_rows swapped r1 r2)) in *. set (c2 := mated_contractors swapped (swap_rows swapped r2 r1)) in *.
  set (d1 := raise_borders c1 b1 b1 b2) in *. set (d2 := raise_borders c2 b2 d1 b2) in *. injection H as <- <-.
  assert (Ld1 : length d1 = length b1) by apply raise_length. assert (Ld2 : length d2 = length b2) by apply raise_length.
  assert (N1 : forall c, (c < length b1)%nat -> nth c d1 [] = if mem c c1 then zip Z.max (nth c b1 []) (nth c b2 []) else nth c b1 []).
  { intros c Hc. apply nth_error_nth. unfold d1. rewrite (raise_nth _ _ _ _ c (nth c b1 [])) by (apply nth_error_nth'; exact Hc). reflexivity. }
  assert (N2 : forall c, (c < length b2)%nat -> nth c d2 [] = if mem c c2 then zip Z.max (nth c d1 []) (nth c b2 []) else nth c b2 []).
  { intros c Hc. apply nth_error_nth. unfold d2. rewrite (raise_nth _ _ _ _ c (nth c b2 [])) by (apply nth_error_nth'; exact Hc). reflexivity. }
  assert (U1 : forall c, (c < length b1)%nat -> within (nth c b1 []) (nth c d1 []) /\ (mem c c1 = true -> within (nth c b2 []) (nth c d1 []))).
  { intros c Hc. rewrite N1 by exact Hc. destruct (zip_max_above (nth c b1 []) (nth c b2 [])) as [Z1 Z2]; [rewrite Hlen1, Hlen2; lia|].
    destruct (mem c c1); split; auto; [apply within_refl|discriminate]. }
  assert (Ln1 : forall c, (c < length b1)%nat -> length (nth c d1 []) = n) by (intros c Hc; rewrite <- (within_length _ _ (proj1 (U1 c Hc))); auto).
  assert (U2 : forall c, (c < length b2)%nat -> within (nth c b2 []) (nth c d2 []) /\ (mem c c2 = true -> within (nth c b1 []) (nth c d2 []))).
  { intros c Hc. rewrite N2 by exact Hc. destruct (zip_max_above (nth c d1 []) (nth c b2 [])) as [Z1 Z2]; [rewrite Ln1, Hlen2; lia|].
    destruct (mem c c2); split; auto; [|apply within_refl|discriminate]. intros _. eapply within_trans; [apply U1; lia|exact Z1]. }
  assert (Hup : forall own d, length d = length own -> (forall c, (c < length own)%nat -> within (nth c own []) (nth c d [])) ->
     forall w r, row_valid lows ups avail own w r -> row_valid lows ups avail d w r).
  { intros own d Hl Hu w r (A1 & A2 & A3 & A4 & A5). split; [exact A1|]. split; [exact A2|]. split; [exact A3|]. split; [lia|].
    eapply within_trans; [exact A5|]. apply Hu. exact A4. }
  assert (Hcb : forall b, borders_valid cborders b -> forall c, (c < length b)%nat -> within (nth c b []) (nth c cborders [])).
  { clear. intros b H. induction H as [|x y b cb Hx F IH]; intros [|c] Hc; simpl in *; try lia; [exact Hx|]. apply IH. lia. }
  assert (Hbv : forall d, length d = length cborders -> (forall c, (c < length d)%nat -> within (nth c d []) (nth c cborders [])) -> borders_valid cborders d).
  { clear. intros d. revert cborders. induction d as [|x d IH]; intros [|y cb] Hl H; simpl in *; try discriminate; constructor.
    - apply (H 0%nat). lia.
    - apply IH; [lia|]. intros c Hc. apply (H (S c)). lia. }
  split; [|split; [|split]].
  - intros w r Hr. assert (Hr' := Hr). apply swap_nth in Hr; [|exact Hlr]. destruct (swapped w) eqn:Es.
    + destruct (V2 w r Hr) as (A1 & A2 & A3 & A4 & A5). split; [exact A1|]. split; [exact A2|]. split; [exact A3|]. split; [lia|].
      eapply within_trans; [exact A5|]. apply U1; [lia|]. apply mem_in, mated_in. exists w, (fst r). split; [exact Es|]. destruct r; exact Hr'.
    + apply (Hup b1 d1 Ld1 (fun c Hc => proj1 (U1 c Hc))). apply V1. exact Hr.
  - intros w r Hr. assert (Hr' := Hr). apply swap_nth in Hr; [|auto]. destruct (swapped w) eqn:Es.
    + destruct (V1 w r Hr) as (A1 & A2 & A3 & A4 & A5). split; [exact A1|]. split; [exact A2|]. split; [exact A3|]. split; [lia|].
      eapply within_trans; [exact A5|]. apply U2; [lia|]. apply mem_in, mated_in. exists w, (fst r). split; [exact Es|]. destruct r; exact Hr'.
    + apply (Hup b2 d2 Ld2 (fun c Hc => proj1 (U2 c Hc))). apply V2. exact Hr.
  - apply Hbv; [rewrite Ld1; apply (forall2_length _ _ _ B1)|]. intros c Hc. rewrite Ld1 in Hc. rewrite N1 by exact Hc.
    destruct (mem c c1); [apply zip_max_within|]; apply Hcb; auto; lia.
  - apply Hbv; [rewrite Ld2; apply (forall2_length _ _ _ B2)|]. intros c Hc. rewrite Ld2 in Hc. rewrite N2 by exact Hc.
    destruct (mem c c2); [|apply Hcb; auto]. apply zip_max_within; [|apply Hcb; auto]. rewrite N1 by lia.
    destruct (mem c c1); [apply zip_max_within|]; apply Hcb; auto; lia.
Qed.
Print Assumptions resource_crossover_correct.

(** Finding: without raising the borders and with different borders the child is invalid. *)
Theorem resource_crossover_needs_equal_borders :
  exists lows ups avail r1 b1 r2 b2 r1' b1' r2' b2',
    rows_valid lows ups avail b1 r1 /\ rows_valid lows ups avail b2 r2 /\ length r1 = length r2 /\
    mate_resources (fun _ => true) false r1 b1 r2 b2 = ((r1', b1'), (r2', b2')) /\ ~ rows_valid lows ups avail b1' r1'.
Proof.
  exists (fun _ => [1]), (fun _ => [9]), (fun _ => [0%nat]), [([2], 0%nat)], [[3]], [([5], 0%nat)], [[6]], [([5], 0%nat)], [[3]], [([2], 0%nat)], [[6]].
  assert (H : forall a b, 1 <= a <= 9 -> a <= b -> rows_valid (fun _ => [1]) (fun _ => [9]) (fun _ => [0%nat]) [[b]] [([a], 0%nat)]).
  { intros a b Ha Hb [|w] r Hr; simpl in Hr; [|destruct w; discriminate]. injection Hr as <-.
    unfold row_valid, within. simpl. repeat split; auto; repeat constructor; lia. }
  split; [apply H; lia|]. split; [apply H; lia|]. split; [reflexivity|]. split; [reflexivity|].
  intros G. destruct (G 0%nat _ eq_refl) as (_ & _ & _ & _ & G5). simpl in G5. inversion G5; subst. lia.
Qed.
Print Assumptions resource_crossover_needs_equal_borders.

(** A concrete case: three works, two professions, two contractors. *)
Definition rx_lows (w : nat) : list Z := match w with 0%nat => [0; 0] | 1%nat => [1; 2] | _ => [2; 0] end.
Definition rx_ups (w : nat) : list Z := match w with 0%nat => [0; 0] | 1%nat => [6; 5] | _ => [7; 0] end.
Definition rx_borders : list (list Z) := [[5; 4]; [7; 6]].
Definition rx_rows : list row := [([0; 0], 0%nat); ([3; 2], 1%nat); ([5; 0], 0%nat)].
Example genetic_resources_case :
  rows_valid rx_lows rx_ups (fun _ => [0; 1]%nat) rx_borders rx_rows /\ shaped 2 rx_borders /\ borders_valid [[8; 8]; [8; 8]] rx_borders /\
  mutate_resources (fun _ => true) (fun w l => last l 0%nat) (fun _ _ => true) (fun w k l => last l 0) rx_lows rx_ups (fun _ => [0; 1]%nat) rx_borders rx_rows
    = Some [([0; 0], 1%nat); ([6; 5], 1%nat); ([7; 0], 1%nat)] /\
  mutate_borders (fun _ _ => true) (fun c k l => hd 0 l) [[8; 8]; [8; 8]] rx_rows rx_borders = Some [[6; 0]; [3; 2]].
Proof.
  split; [|split; [|split; [|split; reflexivity]]].
  - intros [|[|[|w]]] r Hr; simpl in Hr; try (injection Hr as <-); try (destruct w; discriminate);
      unfold row_valid, within; simpl; repeat split; auto; try lia; repeat constructor; lia.
  - intros b [<-|[<-|[]]]; reflexivity.
  - unfold borders_valid, within, rx_borders. repeat constructor; lia.
Qed.
