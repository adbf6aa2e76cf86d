(** Properties C72, C73: measures of resource usage, and the search that minimizes them.
    Vocabulary: [MomentumSpec], [ScheduleSpec]. *)
From Coq Require Import ZArith List Bool Lia QArith Qminmax Lqa Arith Permutation Sorted ZifyBool ZifyNat.
From Verif Require Import TimeModel MomentumModel JITModel MomentumSpec GraphModel ScheduleModel ScheduleSpec TeamProofs ScheduleInv ScheduleTheorems Digraph TopoModel TopoProofs TopoTheorems
  TraverseModel ValidationModel OrderModel OrderTheorems HeadModel HeadProofs HeadTheorems GeneticModel GeneticResModel GeneticResTheorems
  PriorityModel PipelineModel PipelineTheorems SgsModel SgsSpec SgsParallelTheorems GaModel GaProofs GaTheorems GaSchedModel GaSchedSpec GaSchedProofs GaSchedSerial GaSchedTheorems
  GaSchedParallel GaSchedParallelTheorems UsageModel.
Import ListNotations.
Local Open Scope Z_scope.

(** Workers of a profession, of whatever contractor, that are busy at moment [t]. *)
Definition kind_bookings (sd : sched) (k : nat) : list booking :=
  map snd (filter (fun x => Nat.eqb (snd (fst x)) k) (schedule_bookings sd)).
Definition kind_busy (sd : sched) (k : nat) (t : Z) : Z := load (kind_bookings sd k) t.
(** [m] is the greatest number of workers of a profession that are ever busy at once. *)
Definition peak (sd : sched) (k : nat) (m : Z) : Prop :=
  (forall t, kind_busy sd k t <= m) /\ exists t, kind_busy sd k t = m.
(** The professions that occur in the teams of a schedule. *)
Definition used (sd : sched) (k : nat) : Prop := exists n w x, In (n, w) sd /\ In x (sw_team w) /\ w_kind x = k.
Definition chosen (names : option (list nat)) (k : nat) : Prop := match names with None => True | Some l => In k l end.

(** *** Sorted points *)
Lemma add_point_in x l y : In y (add_point x l) <-> y = x \/ In y l.
Proof.
  induction l as [|z l IH]; simpl; [intuition|]. destruct (Z.ltb_spec x z); [simpl; intuition|].
  destruct (Z.eqb_spec x z); [subst; simpl; intuition|]. simpl. rewrite IH. intuition.
Qed.
Lemma add_point_sorted x l : StronglySorted Z.lt l -> StronglySorted Z.lt (add_point x l).
Proof.
  induction l as [|z l IH]; intros H; simpl; [repeat constructor|]. apply StronglySorted_inv in H as [H F].
  destruct (Z.ltb_spec x z).
  - constructor; [constructor; assumption|]. constructor; [exact H0|]. eapply Forall_impl; [|exact F]. intros; lia.
  - destruct (Z.eqb_spec x z); [constructor; assumption|]. constructor; [auto|]. apply Forall_forall. intros y Hy. apply add_point_in in Hy as [->|Hy]; [lia|].
    rewrite Forall_forall in F. auto.
Qed.
Lemma sorted_set_in l y : In y (sorted_set l) <-> In y l.
Proof. induction l as [|x l IH]; simpl; [reflexivity|]. rewrite add_point_in, IH. intuition. Qed.
Lemma sorted_set_sorted l : StronglySorted Z.lt (sorted_set l).
Proof. induction l as [|x l IH]; simpl; [constructor|apply add_point_sorted, IH]. Qed.
Lemma points_in sd y : In y (points sd) <-> exists n w, In (n, w) sd /\ (y = sw_start w \/ y = sw_finish w).
Proof.
  unfold points. rewrite sorted_set_in, in_concat. split.
  - intros (l & Hl & Hy). apply in_map_iff in Hl as ([n w] & <- & Hn). simpl in Hy. exists n, w. intuition.
  - intros (n & w & Hn & Hy). exists [sw_start w; sw_finish w]. split; [apply in_map_iff; exists (n, w); auto|simpl; intuition].
Qed.

(** *** Slices *)
Lemma bisect_left_spec l x : StronglySorted Z.lt l -> forall i p, nth_error l i = Some p -> ((bisect_left l x <= i)%nat <-> x <= p).
Proof.
  induction l as [|y l IH]; intros H i p Hi; [destruct i; discriminate|]. apply StronglySorted_inv in H as [H F]. rewrite Forall_forall in F. simpl.
  destruct (Z.ltb_spec y x) as [L|L].
  - destruct i as [|i]; simpl in Hi; [injection Hi as <-; lia|]. specialize (IH H i p Hi). lia.
  - destruct i as [|i]; simpl in Hi; [injection Hi as <-; lia|]. apply nth_error_In, F in Hi. lia.
Qed.
Lemma add_slice_length u s f c : length (add_slice u s f c) = length u.
Proof. revert s f. induction u as [|x u IH]; intros s f; [reflexivity|]. simpl. destruct f; [reflexivity|]. destruct s; simpl; rewrite IH; reflexivity. Qed.
Lemma add_slice_nth u : forall s f c i, (i < length u)%nat ->
  nth i (add_slice u s f c) 0 = nth i u 0 + (if (s <=? i)%nat && (i <? f)%nat then c else 0).
Proof.
  induction u as [|x u IH]; intros s f c i Hi; [simpl in Hi; lia|]. simpl in Hi. cbn [add_slice].
  destruct f as [|f]; [destruct (Nat.ltb_spec i 0); [lia|]; rewrite andb_false_r; lia|].
  destruct s as [|s]; destruct i as [|i]; cbn [nth].
  - simpl. lia.
  - rewrite IH by lia. reflexivity.
  - simpl. lia.
  - rewrite IH by lia. reflexivity.
Qed.

(** *** The table of usage *)
Fixpoint row (u : list (nat * list Z)) (k : nat) : option (list Z) :=
  match u with [] => None | (k', a) :: r => if Nat.eqb k' k then Some a else row r k end.
Definition cell (u : list (nat * list Z)) (k i : nat) : Z := match row u k with Some a => nth i a 0 | None => 0 end.
Definition table_ok (size : nat) (u : list (nat * list Z)) : Prop := NoDup (map fst u) /\ forall k a, In (k, a) u -> length a = size.
Lemma row_in size u k a : table_ok size u -> In (k, a) u -> row u k = Some a.
Proof.
  intros [H _] Hin. induction u as [|[k' a'] u IH]; [destruct Hin|]. simpl in *. apply NoDup_cons_iff in H as [H1 H2].
  destruct Hin as [[= <- <-]|Hin]; [rewrite Nat.eqb_refl; reflexivity|]. destruct (Nat.eqb_spec k' k) as [->|]; [|auto].
  exfalso. apply H1. apply in_map_iff. exists (k, a). auto.
Qed.
Lemma update_keys size u k f : map fst (update_usage size u k f) = if existsb (fun k' => Nat.eqb k' k) (map fst u) then map fst u else map fst u ++ [k].
Proof.
  induction u as [|[k' a] u IH]; [reflexivity|]. simpl. destruct (Nat.eqb k' k); [reflexivity|]. simpl. rewrite IH. destruct (existsb _ _); reflexivity.
Qed.
Lemma update_key_in size u k f x : In x (map fst (update_usage size u k f)) <-> In x (map fst u) \/ x = k.
Proof.
  rewrite update_keys. destruct (existsb _ _) eqn:E; [|rewrite in_app_iff; simpl; intuition].
  apply existsb_exists in E as (k' & H & E). apply Nat.eqb_eq in E. subst. intuition. subst. assumption.
Qed.
Lemma update_ok size u k f : (forall a, length a = size -> length (f a) = size) -> table_ok size u -> table_ok size (update_usage size u k f).
Proof.
  intros Hf [H1 H2]. split.
  - rewrite update_keys. destruct (existsb _ _) eqn:E; [exact H1|]. apply (Permutation_NoDup (Permutation_cons_append _ _)). constructor; [|exact H1].
    intros Hin. assert (X : existsb (fun k' => Nat.eqb k' k) (map fst u) = true) by (apply existsb_exists; exists k; split; [exact Hin|apply Nat.eqb_refl]). congruence.
  - clear H1. induction u as [|[k' a'] u IH]; intros k0 a Hin; simpl in Hin.
    + destruct Hin as [[= <- <-]|[]]. apply Hf, repeat_length.
    + destruct (Nat.eqb k' k); destruct Hin as [[= <- <-]|Hin]; [apply Hf, (H2 k'); left; reflexivity|apply (H2 k0); right; exact Hin|apply (H2 k'); left; reflexivity|].
      apply (IH (fun k1 a1 Ha => H2 k1 a1 (or_intror Ha)) k0 a Hin).
Qed.
Lemma row_update size u k f k' : row (update_usage size u k f) k' =
  if Nat.eqb k k' then Some (f (match row u k' with Some a => a | None => repeat 0%Z size end)) else row u k'.
Proof.
  induction u as [|[k0 a] u IH]; simpl; [reflexivity|]. destruct (Nat.eqb_spec k0 k) as [->|Hne]; simpl.
  - destruct (Nat.eqb_spec k k'); reflexivity.
  - destruct (Nat.eqb_spec k0 k') as [->|]; [destruct (Nat.eqb_spec k k'); [congruence|reflexivity]|exact IH].
Qed.
Lemma row_length size u k a : table_ok size u -> row u k = Some a -> length a = size.
Proof.
  intros [_ H] E. induction u as [|[k' a'] u IH]; [discriminate|]. simpl in E. destruct (Nat.eqb_spec k' k) as [->|].
  - injection E as <-. apply (H k). left. reflexivity.
  - apply IH; [intros k0 a0 H0; apply (H k0); right; exact H0|exact E].
Qed.

Section Usage.
  Variable names : option (list nat).
  Variable pts : list Z.
  Hypothesis Hs : StronglySorted Z.lt pts.
  Notation size := (length pts).

  Lemma selected_iff k : selected names k = true <-> chosen names k.
  Proof.
    unfold selected, chosen. destruct names as [l|]; [|tauto]. rewrite existsb_exists. split.
    - intros (x & Hx & E). apply Nat.eqb_eq in E. subst. exact Hx.
    - intros H. exists k. split; [exact H|apply Nat.eqb_refl].
  Qed.
  (** what one work adds *)
  Definition share (w : swork) (k : nat) (t : Z) : Z :=
    load (map snd (filter (fun x => Nat.eqb (snd (fst x)) k) (work_bookings (0%nat, w)))) t.
  Lemma use_team_spec s f : forall team u, table_ok size u ->
    table_ok size (use_team names size (bisect_left pts s) (bisect_left pts f) team u) /\
    (forall k i p, selected names k = true -> nth_error pts i = Some p ->
       cell (use_team names size (bisect_left pts s) (bisect_left pts f) team u) k i = cell u k i + share (SW s f team 0) k p) /\
    (forall k, In k (map fst (use_team names size (bisect_left pts s) (bisect_left pts f) team u)) <->
       In k (map fst u) \/ (selected names k = true /\ exists x, In x team /\ w_kind x = k)).
  Proof.
    induction team as [|x team IH]; intros u Hu; simpl.
    - split; [exact Hu|]. split; [intros; unfold share; simpl; lia|]. intros k. split; [auto|]. intros [H|(_ & x & [] & _)]. exact H.
    - set (u' := if selected names (w_kind x) then _ else u).
      assert (Hu' : table_ok size u').
      { unfold u'. destruct (selected names (w_kind x)); [|exact Hu]. apply update_ok; [|exact Hu]. intros a Ha. rewrite add_slice_length. exact Ha. }
      destruct (IH u' Hu') as (A & B & C). split; [exact A|]. split.
      + intros k i p Hk Hp. rewrite (B k i p Hk Hp).
        assert (E : share (SW s f (x :: team) 0) k p = (if Nat.eqb (w_kind x) k then (if (s <=? p) && (p <? f) then w_count x else 0) else 0) + share (SW s f team 0) k p).
        { unfold share. unfold work_bookings. simpl. destruct (Nat.eqb (w_kind x) k); simpl; unfold active; simpl; lia. }
        rewrite E. assert (Hi : (i < size)%nat) by (apply nth_error_Some; congruence).
        assert (Eu : cell u' k i = cell u k i + (if Nat.eqb (w_kind x) k then (if (s <=? p) && (p <? f) then w_count x else 0) else 0)); [|lia].
        unfold u'. destruct (Nat.eqb_spec (w_kind x) k) as [->|Hne].
        * rewrite Hk. unfold cell. rewrite row_update, Nat.eqb_refl.
          assert (Hlen : (i < length (match row u k with Some a => a | None => repeat 0%Z size end))%nat).
          { destruct (row u k) eqn:Er; [rewrite (row_length _ _ _ _ Hu Er)|rewrite repeat_length]; exact Hi. }
          rewrite add_slice_nth by exact Hlen.
          assert (E1 : nth i (match row u k with Some a => a | None => repeat 0%Z size end) 0 = match row u k with Some a => nth i a 0 | None => 0 end).
          { destruct (row u k); [reflexivity|apply nth_repeat]. }
          rewrite E1. f_equal.
          assert (L1 := bisect_left_spec pts s Hs i p Hp). assert (L2 := bisect_left_spec pts f Hs i p Hp).
          destruct (Nat.leb_spec (bisect_left pts s) i), (Nat.ltb_spec i (bisect_left pts f)), (Z.leb_spec s p), (Z.ltb_spec p f); simpl; lia.
        * destruct (selected names (w_kind x)); [|lia]. unfold cell. rewrite row_update. destruct (Nat.eqb_spec (w_kind x) k); [congruence|lia].
      + intros k. rewrite C. unfold u'. destruct (selected names (w_kind x)) eqn:Es; [rewrite update_key_in|]; split.
        * intros [[H| ->]|(H & y & Hy & E)]; [auto|right; split; [exact Es|exists x; auto]|right; split; [exact H|exists y; auto]].
        * intros [H|(H & y & [<-|Hy] & E)]; [auto|left; right; auto|right; split; [exact H|exists y; auto]].
        * intros [H|(H & y & Hy & E)]; [auto|right; split; [exact H|exists y; auto]].
        * intros [H|(H & y & [<-|Hy] & E)]; [auto|rewrite <- E in H; congruence|right; split; [exact H|exists y; auto]].
  Qed.
  Lemma filter_kind_work n w k : map snd (filter (fun x => Nat.eqb (snd (fst x)) k) (work_bookings (n, w))) =
    map snd (filter (fun x => Nat.eqb (snd (fst x)) k) (work_bookings (0%nat, w))).
  Proof. reflexivity. Qed.
  Lemma load_app a b t : load (a ++ b) t = load a t + load b t.
  Proof. induction a as [|x a IH]; simpl; lia. Qed.
  Lemma kind_busy_cons n w sd k t : kind_busy ((n, w) :: sd) k t = share w k t + kind_busy sd k t.
  Proof.
    unfold kind_busy, kind_bookings, schedule_bookings. cbn [map concat]. rewrite filter_app, map_app, load_app. reflexivity.
  Qed.
  Lemma use_works_spec : forall sd u, table_ok size u ->
    table_ok size (use_works names pts sd u) /\
    (forall k i p, selected names k = true -> nth_error pts i = Some p -> cell (use_works names pts sd u) k i = cell u k i + kind_busy sd k p) /\
    (forall k, In k (map fst (use_works names pts sd u)) <-> In k (map fst u) \/ (selected names k = true /\ used sd k)).
  Proof.
    induction sd as [|[n w] sd IH]; intros u Hu; cbn [use_works].
    - split; [exact Hu|]. split; [intros; unfold kind_busy; simpl; lia|]. intros k. split; [auto|]. intros [H|(_ & n & w & x & [] & _)]. exact H.
    - destruct (use_team_spec (sw_start w) (sw_finish w) (sw_team w) u Hu) as (A1 & B1 & C1).
      destruct (IH _ A1) as (A & B & C). split; [exact A|]. split.
      + intros k i p Hk Hp. rewrite (B k i p Hk Hp), (B1 k i p Hk Hp), kind_busy_cons. unfold share. simpl. unfold work_bookings. simpl. lia.
      + intros k. rewrite C, C1. split.
        * intros [[H|(H & x & Hx & E)]|(H & n' & w' & x & H1 & H2 & H3)]; [auto|right; split; [exact H|exists n, w, x; simpl; auto]|].
          right. split; [exact H|]. exists n', w', x. simpl. auto.
        * intros [H|(H & n' & w' & x & [E|H1] & H2 & H3)]; [auto| |].
          -- injection E as <- <-. left. right. split; [exact H|exists x; auto].
          -- right. split; [exact H|]. exists n', w', x. auto.
  Qed.
End Usage.

Lemma maximum_spec l : l <> [] -> In (maximum l) l /\ forall x, In x l -> x <= maximum l.
Proof.
  destruct l as [|x l]; [congruence|]. intros _. simpl.
  assert (G : forall l x, (fold_left Z.max l x = x \/ In (fold_left Z.max l x) l) /\ x <= fold_left Z.max l x /\ forall y, In y l -> y <= fold_left Z.max l x).
  { clear. induction l as [|y l IH]; intros x; simpl; [split; [auto|split; [lia|tauto]]|]. destruct (IH (Z.max x y)) as (A & B & C). split; [|split; [lia|]].
    - destruct A as [A|A]; [|auto]. rewrite A. destruct (Z.max_spec x y) as [[_ ->]|[_ ->]]; auto.
    - intros z [<-|Hz]; [lia|auto]. }
  destruct (G l x) as (A & B & C). split; [intuition|]. intros y [<-|Hy]; [exact B|auto].
Qed.

(** Between two points nothing changes. *)
Lemma load_same bs t p : (forall b, In b bs -> active b t = active b p) -> load bs t = load bs p.
Proof. induction bs as [|b bs IH]; intros H; [reflexivity|]. simpl. rewrite (H b) by (left; reflexivity). rewrite IH; [reflexivity|]. intros; apply H; right; assumption. Qed.
Lemma kind_booking_points sd k b : In b (kind_bookings sd k) -> In (b_start b) (points sd) /\ In (b_end b) (points sd).
Proof.
  unfold kind_bookings, schedule_bookings. intros H. apply in_map_iff in H as ([a b'] & <- & H). apply filter_In in H as [H _].
  apply in_concat in H as (l & Hl & H). apply in_map_iff in Hl as ([n w] & <- & Hn). unfold work_bookings in H. apply in_map_iff in H as (x & [= <- <-] & _). simpl.
  split; apply points_in; exists n, w; auto.
Qed.
Lemma floor_point (l : list Z) t : (forall x, In x l -> t < x) \/ exists p, In p l /\ p <= t /\ forall x, In x l -> x <= t -> x <= p.
Proof.
  induction l as [|y l [H|(p & H1 & H2 & H3)]].
  - left. intros x [].
  - destruct (Z.le_gt_cases y t) as [L|L].
    + right. exists y. split; [left; reflexivity|]. split; [exact L|]. intros x [<-|Hx] Hle; [lia|]. specialize (H x Hx). lia.
    + left. intros x [<-|Hx]; [lia|auto].
  - right. destruct (Z.le_gt_cases y t) as [L|L].
    + exists (Z.max y p). split; [destruct (Z.max_spec y p) as [[_ ->]|[_ ->]]; [right; exact H1|left; reflexivity]|]. split; [lia|].
      intros x [<-|Hx] Hle; [lia|]. specialize (H3 x Hx Hle). lia.
    + exists p. split; [right; exact H1|]. split; [exact H2|]. intros x [<-|Hx] Hle; [lia|auto].
Qed.
Lemma busy_at_points sd k t : kind_busy sd k t = 0 \/ exists p, In p (points sd) /\ kind_busy sd k t = kind_busy sd k p.
Proof.
  destruct (floor_point (points sd) t) as [H|(p & H1 & H2 & H3)].
  - left. unfold kind_busy. assert (G : forall b, In b (kind_bookings sd k) -> active b t = false).
    { intros b Hb. apply kind_booking_points in Hb as [Hb _]. specialize (H _ Hb). unfold active. lia. }
    induction (kind_bookings sd k) as [|b bs IH]; [reflexivity|]. simpl. rewrite (G b) by (left; reflexivity). rewrite IH; [reflexivity|]. intros; apply G; right; assumption.
  - right. exists p. split; [exact H1|]. apply load_same. intros b Hb. apply kind_booking_points in Hb as [Hb1 Hb2]. unfold active.
    assert (A := H3 _ Hb1). assert (B := H3 _ Hb2).
    destruct (Z.leb_spec (b_start b) t), (Z.leb_spec (b_start b) p), (Z.ltb_spec t (b_end b)), (Z.ltb_spec p (b_end b)); simpl; auto; lia.
Qed.
Lemma last_point_idle sd k p : (forall x, In x (points sd) -> x <= p) -> kind_busy sd k p = 0.
Proof.
  intros H. unfold kind_busy. assert (G : forall b, In b (kind_bookings sd k) -> active b p = false).
  { intros b Hb. apply kind_booking_points in Hb as [_ Hb]. specialize (H _ Hb). unfold active. lia. }
  induction (kind_bookings sd k) as [|b bs IH]; [reflexivity|]. simpl. rewrite (G b) by (left; reflexivity). rewrite IH; [reflexivity|]. intros; apply G; right; assumption.
Qed.

(** C72. The peak usage lists every chosen profession of the schedule once, with the
    greatest number of its workers that are ever busy at once. *)
Theorem peak_usage_exact :
  forall names sd,
    NoDup (map fst (peak_usage names sd)) /\
    (forall k, In k (map fst (peak_usage names sd)) <-> chosen names k /\ used sd k) /\
    (forall k m, In (k, m) (peak_usage names sd) -> peak sd k m).
Proof.
  intros names sd. assert (Hs := sorted_set_sorted (concat (map (fun x => [sw_start (snd x); sw_finish (snd x)]) sd))). fold (points sd) in Hs.
  destruct (use_works_spec names (points sd) Hs sd []) as (A & B & C); [split; [constructor|intros k a []]|].
  fold (total_usage names sd) in A, B, C. unfold peak_usage.
  assert (Ek : map fst (map (fun x => (fst x, maximum (snd x))) (total_usage names sd)) = map fst (total_usage names sd)) by (rewrite map_map; reflexivity).
  rewrite Ek. split; [apply A|]. split.
  { intros k. rewrite C, selected_iff. simpl. tauto. }
  intros k m H. apply in_map_iff in H as ([k' a] & [= -> <-] & Hin). assert (Er := row_in _ _ _ _ A Hin). assert (La := row_length _ _ _ _ A Er).
  assert (Hk : selected names k = true /\ used sd k).
  { assert (Hk : In k (map fst (total_usage names sd))) by (apply in_map_iff; exists (k, a); auto). apply C in Hk as [[]|Hk]. exact Hk. }
  destruct Hk as [Hk (n & w & x & Hn & _ & _)].
  assert (Hcell : forall i p, nth_error (points sd) i = Some p -> nth i a 0 = kind_busy sd k p).
  { intros i p Hp. assert (E := B k i p Hk Hp). unfold cell in E. rewrite Er in E. simpl in E. exact E. }
  assert (Hw : In (sw_start w) (points sd)) by (apply points_in; exists n, w; auto).
  assert (Hne : a <> []) by (intros ->; destruct (points sd); [destruct Hw|discriminate]).
  destruct (maximum_spec a Hne) as [M1 M2]. split.
  - assert (Hpt : forall p, In p (points sd) -> kind_busy sd k p <= maximum a).
    { intros p Hp. apply In_nth_error in Hp as [i Hi]. rewrite <- (Hcell i p Hi). apply M2, nth_In. rewrite La. apply nth_error_Some. congruence. }
    intros t. destruct (busy_at_points sd k t) as [E|(p & Hp & E)]; [|rewrite E; auto].
    assert (Hm : exists p, In p (points sd) /\ forall y, In y (points sd) -> y <= p).
    { clear -Hw. assert (Hn : points sd <> []) by (intros E; rewrite E in Hw; destruct Hw). destruct (maximum_spec _ Hn) as [P1 P2]. eauto. }
    destruct Hm as (p & Hp & Hmax). specialize (Hpt p Hp). rewrite (last_point_idle sd k p Hmax) in Hpt. lia.
  - apply (In_nth _ _ 0) in M1 as (i & Hi & E). rewrite La in Hi. apply nth_error_Some in Hi. destruct (nth_error (points sd) i) as [p|] eqn:Ep; [|congruence].
    exists p. rewrite <- (Hcell i p Ep). exact E.
Qed.
Print Assumptions peak_usage_exact.

(** *** Sums of peaks *)
(** [s] is the sum, over the chosen professions, of their peaks. *)
Definition peaks_total (names : option (list nat)) (sd : sched) (s : Z) : Prop :=
  exists l, NoDup (map fst l) /\ (forall k, In k (map fst l) <-> chosen names k /\ used sd k) /\
    (forall k m, In (k, m) l -> peak sd k m) /\ s = fold_right Z.add 0 (map snd l).
Lemma peak_unique sd k m m' : peak sd k m -> peak sd k m' -> m = m'.
Proof. intros [A [t T]] [B [t' T']]. specialize (A t'). specialize (B t). lia. Qed.
Lemma fold_add_perm (l l' : list Z) : Permutation l l' -> fold_right Z.add 0 l = fold_right Z.add 0 l'.
Proof. induction 1; simpl; lia. Qed.
Theorem peaks_total_unique : forall names sd s s', peaks_total names sd s -> peaks_total names sd s' -> s = s'.
Proof.
  intros names sd s s' (l & N & K & P & ->) (l' & N' & K' & P' & ->). apply fold_add_perm, Permutation_map. apply NoDup_Permutation.
  - eapply NoDup_map_inv; exact N.
  - eapply NoDup_map_inv; exact N'.
  - assert (G : forall l l', (forall k, In k (map fst l) <-> chosen names k /\ used sd k) -> (forall k m, In (k, m) l -> peak sd k m) ->
      (forall k, In k (map fst l') <-> chosen names k /\ used sd k) -> (forall k m, In (k, m) l' -> peak sd k m) -> incl l l').
    { clear. intros l l' K P K' P' [k m] H. assert (Hk : In k (map fst l)) by (apply in_map_iff; exists (k, m); auto). apply K, K' in Hk.
      apply in_map_iff in Hk as ([k' m'] & E & H'). simpl in E. subst k'. rewrite (peak_unique sd k m m'); auto. }
    intros x. split; apply G; assumption.
Qed.
Print Assumptions peaks_total_unique.
Lemma peaks_of sd names : peaks_total names sd (zsum (map snd (peak_usage names sd))).
Proof. destruct (peak_usage_exact names sd) as (A & B & C). exists (peak_usage names sd). auto. Qed.
Lemma kind_busy_perm sd sd' : Permutation sd sd' -> forall k t, kind_busy sd k t = kind_busy sd' k t.
Proof.
  induction 1 as [|[n w] l l' P IH|[n w] [n' w'] l|l l' l'' P1 IH1 P2 IH2]; intros k t; [reflexivity| | |].
  - rewrite !kind_busy_cons, IH. reflexivity.
  - rewrite !kind_busy_cons. lia.
  - rewrite IH1. apply IH2.
Qed.
Lemma peaks_total_perm names sd sd' s : Permutation sd sd' -> peaks_total names sd s -> peaks_total names sd' s.
Proof.
  intros P (l & N & K & Pk & E). exists l. split; [exact N|]. split; [|split; [|exact E]].
  - intros k. rewrite (K k). unfold used. split; intros [H1 (n & w & x & H2 & H3)]; (split; [exact H1|]); exists n, w, x; (split; [|exact H3]);
      [|apply Permutation_sym in P]; eapply Permutation_in; eauto.
  - intros k m H. destruct (Pk k m H) as [A [t B]]. split; [intros t'; rewrite <- (kind_busy_perm _ _ P); apply A|exists t; rewrite <- (kind_busy_perm _ _ P); exact B].
Qed.

(** *** Peaks stay within the workforce *)
(** The workers of a profession that the contractors have together. *)
Definition workforce (cs : list contractor) (k : nat) : Z :=
  fold_right Z.add 0 (map snd (filter (fun x => Nat.eqb (fst x) k) (concat (map ct_workers cs)))).
(** Every worker of the schedule belongs to a contractor that has the profession. *)
Definition peopled (cs : list contractor) (sd : sched) : Prop :=
  forall n w x, In (n, w) sd -> In x (sw_team w) -> exists ct m, In ct cs /\ w_contractor x = ct_id ct /\ In (w_kind x, m) (ct_workers ct).
Section Workforce.
  Variable cs : list contractor.
  Hypothesis Hcs : contractors_ok cs.
  Variable k : nat.
  Definition has_kind (ct : contractor) : bool := existsb (fun x => Nat.eqb (fst x) k) (ct_workers ct).
  Definition ids : list nat := map ct_id (filter has_kind cs).
  Lemma ids_nodup : NoDup ids.
  Proof.
    destruct Hcs as [H _]. unfold ids. clear Hcs. induction cs as [|c l IH]; [constructor|]. simpl in *. apply NoDup_cons_iff in H as [H1 H2].
    destruct (has_kind c); [|auto]. simpl. constructor; [|auto]. intros Hin. apply H1. apply in_map_iff in Hin as (c' & E & Hc'). apply filter_In in Hc' as [Hc' _].
    apply in_map_iff. eauto.
  Qed.
  Definition owned (h : history) : Prop := forall a b, In (a, b) h -> snd a = k -> In (fst a) ids.
  Lemma kind_split h t : owned h ->
    load (map snd (filter (fun x => Nat.eqb (snd (fst x)) k) h)) t = fold_right Z.add 0 (map (fun i => busy h (i, k) t) ids).
  Proof.
    intros Ho. induction h as [|[[i k'] b] h IH].
    - clear. simpl. generalize ids. induction l as [|i l IH]; [reflexivity|]. cbn [map fold_right]. rewrite <- IH. reflexivity.
    - assert (Ho' : owned h) by (intros a b' Hab; apply (Ho a b'); right; exact Hab). specialize (IH Ho').
      assert (E : forall j, busy (((i, k'), b) :: h) (j, k) t = (if Nat.eqb i j && Nat.eqb k' k then (if active b t then b_count b else 0) else 0) + busy h (j, k) t).
      { intros j. unfold busy. cbn [bookings_of fst snd]. destruct (Nat.eqb i j && Nat.eqb k' k); simpl; lia. }
      cbn [filter fst snd]. destruct (Nat.eqb_spec k' k) as [->|Hne].
      + cbn [map load snd]. rewrite IH. clear IH. assert (Hi : In i ids) by (apply (Ho (i, k) b); [left|]; reflexivity). assert (Nd := ids_nodup).
        revert Hi Nd. clear Ho Ho'. generalize ids. intros l. induction l as [|j l IH]; intros Hi Nd; [destruct Hi|]. cbn [map fold_right]. rewrite E.
        apply NoDup_cons_iff in Nd as [N1 N2]. rewrite andb_true_r. destruct Hi as [->|Hi].
        * rewrite Nat.eqb_refl. assert (G : fold_right Z.add 0 (map (fun i0 => busy (((i, k), b) :: h) (i0, k) t) l) = fold_right Z.add 0 (map (fun i0 => busy h (i0, k) t) l)).
          { f_equal. apply map_ext_in. intros j Hj. rewrite E. destruct (Nat.eqb_spec i j) as [->|]; [tauto|]. simpl. lia. }
          rewrite <- Z.add_assoc. f_equal. f_equal. symmetry. exact G.
        * destruct (Nat.eqb_spec i j) as [->|]; [tauto|]. rewrite <- (IH Hi N2). lia.
      + rewrite IH. f_equal. apply map_ext. intros j. rewrite E. rewrite andb_false_r. lia.
  Qed.
  Lemma workforce_ids : exists f, workforce cs k = fold_right Z.add 0 (map f ids) /\ forall ct n, In ct cs -> In (k, n) (ct_workers ct) -> f (ct_id ct) = n.
  Proof.
    destruct Hcs as [H1 H2]. unfold ids, workforce. clear Hcs. induction cs as [|c l IH]; [exists (fun _ => 0); split; [reflexivity|intros ct n []]|].
    simpl in H1. apply NoDup_cons_iff in H1 as [N1 N2]. destruct IH as (f & F1 & F2); [exact N2|intros c' Hc'; apply H2; right; exact Hc'|].
    assert (W : exists v, fold_right Z.add 0 (map snd (filter (fun x => Nat.eqb (fst x) k) (ct_workers c))) = v /\
                 (has_kind c = false -> v = 0) /\ forall n, In (k, n) (ct_workers c) -> v = n).
    { eexists. split; [reflexivity|]. destruct (H2 c) as [D _]; [left; reflexivity|]. unfold has_kind. clear - D. induction (ct_workers c) as [|[k' n'] ws IH]; [split; [reflexivity|intros n []]|].
      simpl in D. apply NoDup_cons_iff in D as [D1 D2]. destruct (IH D2) as [I1 I2]. simpl. destruct (Nat.eqb_spec k' k) as [->|Hne]; simpl.
      - assert (Z0 : fold_right Z.add 0 (map snd (filter (fun x => Nat.eqb (fst x) k) ws)) = 0).
        { apply I1. destruct (existsb _ ws) eqn:E; [|reflexivity]. apply existsb_exists in E as (y & Hy & E). apply Nat.eqb_eq in E. exfalso. apply D1. rewrite <- E. apply in_map. exact Hy. }
        split; [discriminate|]. intros n [[= ->]|Hn]; [lia|]. exfalso. apply D1. apply in_map_iff. exists (k, n). auto.
      - split; [exact I1|]. intros n [[= -> ->]|Hn]; [congruence|auto]. }
    destruct W as (v & W1 & W2 & W3). exists (fun i => if Nat.eqb i (ct_id c) then v else f i). split.
    - cbn [map concat]. rewrite filter_app, map_app, fold_right_app. rewrite F1.
      assert (G : forall a b, fold_right Z.add b a = fold_right Z.add 0 a + b) by (induction a as [|x a IHa]; intros b; simpl; [lia|rewrite IHa; lia]).
      rewrite G, W1. assert (E : map (fun i => if Nat.eqb i (ct_id c) then v else f i) (map ct_id (filter has_kind l)) = map f (map ct_id (filter has_kind l))).
      { apply map_ext_in. intros i Hi. destruct (Nat.eqb_spec i (ct_id c)) as [->|]; [|reflexivity]. exfalso. apply N1. apply in_map_iff in Hi as (c' & Ec & Hc'). apply filter_In in Hc' as [Hc' _].
        apply in_map_iff. eauto. }
      cbn [filter]. destruct (has_kind c) eqn:Eh; [cbn [map fold_right]; rewrite Nat.eqb_refl, E; lia|]. rewrite E, (W2 eq_refl). lia.
    - intros ct n [<-|Hct] Hn; [rewrite Nat.eqb_refl; auto|]. destruct (Nat.eqb_spec (ct_id ct) (ct_id c)) as [Ei|]; [exfalso; apply N1; rewrite <- Ei; apply in_map; exact Hct|eauto].
  Qed.
  Lemma busy_within sd t : peopled cs sd -> (forall ct n, In ct cs -> In (k, n) (ct_workers ct) -> busy (schedule_bookings sd) (ct_id ct, k) t <= n) ->
    kind_busy sd k t <= workforce cs k.
  Proof.
    intros Hp Hc. unfold kind_busy, kind_bookings. rewrite kind_split.
    - destruct workforce_ids as (f & -> & F). assert (G : forall i, In i ids -> busy (schedule_bookings sd) (i, k) t <= f i).
      { intros i Hi. unfold ids in Hi. apply in_map_iff in Hi as (ct & <- & Hct). apply filter_In in Hct as [H1 H2]. apply existsb_exists in H2 as ([k' n] & Hn & E).
        apply Nat.eqb_eq in E. simpl in E. subst k'. rewrite (F ct n H1 Hn). auto. }
      revert G. generalize ids. induction l as [|i l IH]; intros G; simpl; [lia|]. assert (A := G i (or_introl eq_refl)). assert (B := IH (fun j Hj => G j (or_intror Hj))). lia.
    - intros a b Hab Ek. unfold schedule_bookings in Hab. apply in_concat in Hab as (l & Hl & Hab). apply in_map_iff in Hl as ([n w] & <- & Hn).
      unfold work_bookings in Hab. apply in_map_iff in Hab as (x & E & Hx). injection E as <- _. simpl in *. destruct (Hp n w x Hn Hx) as (ct & m & H1 & H2 & H3). rewrite H2.
      unfold ids. apply in_map. apply filter_In. split; [exact H1|]. unfold has_kind. apply existsb_exists. exists (w_kind x, m). split; [exact H3|]. simpl. apply Nat.eqb_eq. exact Ek.
  Qed.
End Workforce.
Lemma staffed_peopled g cs spec works sd : graph_ok g works -> Permutation (map fst sd) works ->
  (forall h n w, is_head g works h -> in_chain g h n -> In (n, w) sd -> staffed_anyhow g cs spec h w) -> peopled cs sd.
Proof.
  intros Hg Hp H n w x Hn Hx. assert (Hw : In n works) by (eapply Permutation_in; [exact Hp|]; apply in_map_iff; exists (n, w); auto).
  destruct (has_head g (graph_chains g works Hg) works (gk_closed _ _ Hg) n Hw) as (h & H1 & H2).
  destruct (H h n w H1 H2 Hn) as (ct & C1 & _ & _ & _ & C2 & _). destruct (C2 x Hx) as (D1 & _ & _ & m & D2 & _). exists ct, m. auto.
Qed.

Lemma feasible_peopled g cs spec works sd : graph_ok g works -> feasible g cs spec works sd -> peopled cs sd.
Proof.
  intros Hg F n w x Hn Hx. assert (Hw : In n works) by (eapply Permutation_in; [apply (fs_works _ _ _ _ _ F)|]; apply in_map_iff; exists (n, w); auto).
  destruct (has_head g (graph_chains g works Hg) works (gk_closed _ _ Hg) n Hw) as (h & H1 & H2).
  destruct (fs_teams _ _ _ _ _ F h n w H1 H2 Hn) as (ct & C1 & _ & _ & C2). clear -C1 C2 Hx. induction C2 as [|r y rs ys (D1 & D2 & _ & m & D3 & _) C2 IH]; [destruct Hx|].
  destruct Hx as [<-|Hx]; [|auto]. exists ct, m. rewrite D2. auto.
Qed.
(** C72. Neither scheme ever uses more workers of a profession at once than all contractors
    have together, so no peak is above that. *)
Theorem peaks_within_workforce :
  forall names g cs spec works sd k m, contractors_ok cs -> graph_ok g works ->
    feasible g cs spec works sd \/ parallel_feasible g cs spec works sd ->
    In (k, m) (peak_usage names sd) -> m <= workforce cs k.
Proof.
  intros names g cs spec works sd k m Hc Hg F H. destruct (peak_usage_exact names sd) as (_ & _ & P). destruct (P k m H) as [_ [t <-]].
  apply busy_within; [exact Hc| |].
  - destruct F as [F|F]; [eapply feasible_peopled; eauto|]. eapply (staffed_peopled g cs spec works sd); [exact Hg|apply (pf_works _ _ _ _ _ F)|apply (pf_teams _ _ _ _ _ F)].
  - intros ct n Hct Hn. destruct F as [F|F]; [apply (fs_capacity _ _ _ _ _ F ct k n t Hct Hn)|apply (pf_capacity _ _ _ _ _ F ct k n t Hct Hn)].
Qed.
Print Assumptions peaks_within_workforce.

(** ** The search that minimizes the peaks *)
(** What SumOfResourcesPeaksFitness measures: the sum of the peaks; infinite for a schedule
    that never ends. *)
Definition peaks_measure (names : option (list nat)) (sd : sched) (s : Z) : Prop :=
  exists t, latest_finish sd t /\ ((t < TIME_INF /\ peaks_total names sd s) \/ (t = TIME_INF /\ s = TIME_INF)).
(** What TimeWithResourcesFitness measures. *)
Definition time_with_peaks_measure (names : option (list nat)) (sd : sched) (s : Z) : Prop :=
  exists t p, latest_finish sd t /\ peaks_measure names sd p /\ s = t + p.

Lemma rows_measures g works finish names listing sd : graph_ok g works -> In finish works ->
  (forall n, In n works -> n = finish \/ path (depends_on g) n finish) ->
  (forall l, Permutation (listing l) l) -> Permutation (map fst sd) works ->
  (forall n w, In (n, w) sd -> 0 <= sw_start w <= sw_finish w /\ sw_finish w <= TIME_INF) ->
  (forall n m v w, depends_on g n m -> In (n, v) sd -> In (m, w) sd -> sw_finish v <= sw_start w) ->
  exists rows t, schedule_rows listing g (rev sd) = Ends rows /\ latest_finish sd t /\ end_time rows = t /\ peaks_measure names sd (peaks_sum names rows).
Proof.
  intros Hg Hfin Hend Hl F1 F2 F3. destruct (schedule_time g works Hg finish Hfin Hend listing sd Hl F1 F2 F3) as (rows & t & E1 & E2 & E3).
  assert (Et : end_time rows = t) by (injection E2 as E2; exact E2).
  destruct (rows_ordered listing g (rev sd) Hl (gk_acyclic _ _ Hg)) as (rows' & E & P & _).
  { rewrite map_rev. eapply Permutation_NoDup; [apply Permutation_rev|]. eapply Permutation_NoDup; [apply Permutation_sym; exact F1|apply (gk_nodup _ _ Hg)]. }
  assert (rows' = rows) by congruence. subst rows'. assert (P' : Permutation rows sd) by (eapply Permutation_trans; [exact P|apply Permutation_sym, Permutation_rev]).
  exists rows, t. split; [exact E1|]. split; [exact E3|]. split; [exact Et|]. exists t. split; [exact E3|]. unfold peaks_sum, is_inf. rewrite Et.
  destruct E3 as (A & n & w & Hn & Ew). destruct (F2 n w Hn) as [B1 B2]. destruct (Z.eqb_spec (Z.abs t) TIME_INF) as [Ei|Ei].
  - right. split; [lia|reflexivity].
  - left. split; [lia|]. eapply peaks_total_perm; [exact P'|apply peaks_of].
Qed.
Lemma parallel_precedence g works cs spec sd : graph_ok g works -> (forall n, sp_independent (spec n) = false) -> (forall e, In e (g_edges g) -> 0 <= e_lag e) ->
  parallel_feasible g cs spec works sd -> forall n m v w, depends_on g n m -> In (n, v) sd -> In (m, w) sd -> sw_finish v <= sw_start w.
Proof.
  intros Hg Hind Hlag F n m v w (e & He & _ & En & Em) Iv Iw. subst n m. destruct (gk_closed _ _ Hg e He) as [_ Hvn].
  destruct (has_head g (graph_chains g works Hg) works (gk_closed _ _ Hg) _ Hvn) as (h & Hh1 & Hh2). assert (G := pf_lags _ _ _ _ _ F e h v w He Iv Iw Hh1 Hh2 (Hind h)).
  destruct (pf_times _ _ _ _ _ F (e_from e) v Iv) as [Hle Hle']. specialize (Hlag e He).
  assert (sw_finish v <= tadd (sw_finish v) (e_lag e)); [|lia]. unfold tadd, set_time. destruct (TIME_INF <? sw_finish v + e_lag e) eqn:E1; [lia|].
  destruct (sw_finish v + e_lag e <? - TIME_INF) eqn:E2; [assert (0 <= TIME_INF) by (vm_compute; discriminate)|]; lia.
Qed.

(** C73. Minimizing the sum of the peaks, or the execution time plus the sum of the peaks,
    the genetic scheduler answers one feasible schedule whose measure is not greater than
    that of the schedule of any individual of the first population. *)
Theorem genetic_peaks_no_worse :
  forall g works est cs spec prio apt optimize tb finish names listing shuffle draw timeout nsga2 size worst max_plateau number init fitness measure,
    (fitness = peaks_fitness names /\ measure = peaks_measure names \/
     fitness = time_with_peaks_fitness names /\ measure = time_with_peaks_measure names) ->
    genetic_inputs g works est cs spec apt optimize -> prepare g works cs spec prio = Some tb ->
    (forall e, In e (g_edges g) -> 0 <= e_lag e) ->
    In finish works -> (forall n, In n works -> n = finish \/ path (depends_on g) n finish) ->
    (forall l, Permutation (listing l) l) -> (forall s k l, Permutation (shuffle s k l) l) -> (forall s k l, incl (nsga2 s k l) l) ->
    (forall s k, draws_ok (draw s k)) -> (0 < size)%nat ->
    init <> [] -> Forall (individual_ok g cs spec prio (tb_nodes tb) (tb_cborders tb) optimize) init ->
    exists ch sd s, genetic_schedules g cs tb (serial g est cs tb apt) listing shuffle draw timeout nsga2 false size [-1] fitness [worst]
                      optimize max_plateau number init = Some [(ch, sd)] /\
      feasible g cs spec works sd /\ lags_respected g works sd /\ measure sd s /\
      forall c, In c init -> exists sd0 s0, serial g est cs tb apt c = Some sd0 /\ measure sd0 s0 /\ s <= s0.
Proof.
  intros g works est cs spec prio apt opt tb finish names listing shuffle draw timeout nsga2 size worst mp number init fitness measure Hf Hin Hp Hlag Hfin Hend Hl Hs Hn Hd Hsize Hne Hi.
  assert (Hg := gi_graph _ _ _ _ _ _ _ Hin). assert (Htb := prepare_ok _ _ _ _ _ _ Hg Hp).
  destruct (measure_no_worse g works est cs spec prio apt opt tb listing (serial g est cs tb apt) (fun sd => feasible g cs spec works sd /\ lags_respected g works sd)
    fitness measure shuffle draw timeout nsga2 size worst mp number init Hin Hp Hl) as (ch & sd & t & E & [F L] & Ht & H); try assumption; [| | | |eauto 10].
  - intros sd [F _]. apply (fs_works _ _ _ _ _ F).
  - intros ch V. destruct (serial_ok g works est cs spec prio apt opt tb Hin Htb ch V) as (sd & start & E & F & L). exists sd. unfold serial. rewrite E. auto.
  - intros sd [F L]. destruct (rows_measures g works finish names listing sd Hg Hfin Hend Hl (fs_works _ _ _ _ _ F) (fs_times _ _ _ _ _ F)) as (rows & t & E1 & E2 & E3 & E4).
    { eapply feasible_precedence; eauto. }
    destruct Hf as [[-> ->]|[-> ->]]; exists rows; eexists; (split; [exact E1|]); (split; [reflexivity|]); [exact E4|]. exists t, (peaks_sum names rows). rewrite E3. auto.
  - intros rows. destruct Hf as [[-> _]|[-> _]]; reflexivity.
Qed.
Print Assumptions genetic_peaks_no_worse.

(** C73, the parallel scheme, for works that are not independent. *)
Theorem parallel_genetic_peaks_no_worse :
  forall g works est cs spec prio apt D Lg optimize tb fuel finish names listing shuffle draw timeout nsga2 size worst max_plateau number init fitness measure,
    (fitness = peaks_fitness names /\ measure = peaks_measure names \/
     fitness = time_with_peaks_fitness names /\ measure = time_with_peaks_measure names) ->
    genetic_inputs g works est cs spec apt optimize -> parallel_inputs g works est cs spec apt D Lg -> prepare g works cs spec prio = Some tb ->
    (iterations g works apt D Lg tb <= fuel)%nat ->
    (forall n, sp_independent (spec n) = false) -> (forall e, In e (g_edges g) -> 0 <= e_lag e) ->
    In finish works -> (forall n, In n works -> n = finish \/ path (depends_on g) n finish) ->
    (forall l, Permutation (listing l) l) -> (forall s k l, Permutation (shuffle s k l) l) -> (forall s k l, incl (nsga2 s k l) l) ->
    (forall s k, draws_ok (draw s k)) -> (0 < size)%nat ->
    init <> [] -> Forall (individual_ok g cs spec prio (tb_nodes tb) (tb_cborders tb) optimize) init ->
    exists ch sd s, genetic_schedules g cs tb (parallel g est cs tb apt fuel) listing shuffle draw timeout nsga2 false size [-1] fitness [worst]
                      optimize max_plateau number init = Some [(ch, sd)] /\
      parallel_feasible g cs spec works sd /\ measure sd s /\
      forall c, In c init -> exists sd0 s0, parallel g est cs tb apt fuel c = Some sd0 /\ measure sd0 s0 /\ s <= s0.
Proof.
  intros g works est cs spec prio apt D Lg opt tb fuel finish names listing shuffle draw timeout nsga2 size worst mp number init fitness measure Hf
    Hin Hpi Hp Hfu Hind Hlag Hfin Hend Hl Hs Hn Hd Hsize Hne Hi.
  assert (Hg := gi_graph _ _ _ _ _ _ _ Hin). assert (Htb := prepare_ok _ _ _ _ _ _ Hg Hp).
  destruct (measure_no_worse g works est cs spec prio apt opt tb listing (parallel g est cs tb apt fuel) (parallel_feasible g cs spec works)
    fitness measure shuffle draw timeout nsga2 size worst mp number init Hin Hp Hl) as (ch & sd & t & E & F & Ht & H); try assumption; [| | | |eauto 10].
  - apply pf_works.
  - intros ch V. destruct (parallel_ok g works est cs spec prio apt opt tb D Lg Hin Hpi Htb ch V) as (s & E & F). exists (ps_sched s).
    unfold parallel. rewrite (E fuel Hfu). auto.
  - intros sd F. destruct (rows_measures g works finish names listing sd Hg Hfin Hend Hl (pf_works _ _ _ _ _ F) (pf_times _ _ _ _ _ F)) as (rows & t & E1 & E2 & E3 & E4).
    { eapply parallel_precedence; eauto. }
    destruct Hf as [[-> ->]|[-> ->]]; exists rows; eexists; (split; [exact E1|]); (split; [reflexivity|]); [exact E4|]. exists t, (peaks_sum names rows). rewrite E3. auto.
  - intros rows. destruct Hf as [[-> _]|[-> _]]; reflexivity.
Qed.
Print Assumptions parallel_genetic_peaks_no_worse.

(** ** A case *)
(** The schedule of [sx_result]: its peaks, and those of the second profession alone. *)
Definition ux_sched : sched := match sx_result with Done (sd, _) => sd | _ => [] end.
Example ux_values :
  peak_usage None ux_sched = [(0%nat, 3); (1%nat, 1)] /\ peak_usage (Some [1%nat]) ux_sched = [(1%nat, 1)] /\
  peaks_sum None ux_sched = 4 /\ workforce sx_contractors 0 = 5 /\ workforce sx_contractors 1 = 3 /\
  kind_busy ux_sched 0 5 = 3 /\ kind_busy ux_sched 0 20 = 1.
Proof. vm_compute. repeat split. Qed.
Definition peaks_gx_answer (fitness : works -> list Z) :=
  match gx_toolbox, gx_individual with
  | Some tb, Some c =>
      genetic_schedules sx_graph sx_contractors tb (serial sx_graph sx_est sx_contractors tb 0) (fun l => l) (fun _ _ l => l) gx_draws (fun _ _ => false)
        (fun _ _ l => l) false 2 [-1] fitness [TIME_INF] true None 3 [c; c]
  | _, _ => None
  end.
Example genetic_peaks_hypotheses :
  genetic_inputs sx_graph px_nodes sx_est sx_contractors sx_spec 0 true /\
  exists tb c ch sd s,
     prepare sx_graph px_nodes sx_contractors sx_spec (fun _ => 1) = Some tb /\
     individual_ok sx_graph sx_contractors sx_spec (fun _ => 1) (tb_nodes tb) (tb_cborders tb) true c /\
     peaks_gx_answer (peaks_fitness None) = Some [(ch, sd)] /\ feasible sx_graph sx_contractors sx_spec px_nodes sd /\ peaks_measure None sd s /\
     (exists sd0 s0, serial sx_graph sx_est sx_contractors tb 0 c = Some sd0 /\ peaks_measure None sd0 s0 /\ s <= s0) /\
     (forall k m, In (k, m) (peak_usage None sd) -> m <= workforce sx_contractors k).
Proof.
  split; [exact gx_inputs|].
  destruct genetic_hypotheses as (_ & tb & c & sd0 & s0 & _ & _ & _ & _ & G1 & G2 & G3 & G4 & G5 & _).
  destruct (genetic_peaks_no_worse sx_graph px_nodes sx_est sx_contractors sx_spec (fun _ => 1) 0 true tb 5 None
    (fun l => l) (fun _ _ l => l) gx_draws (fun _ _ => false) (fun _ _ l => l) 2%nat TIME_INF None 3 [c; c] (peaks_fitness None) (peaks_measure None)
    (or_introl (conj eq_refl eq_refl)) gx_inputs G1 sx_lags) as (ch & sd & s & E & F & L & Hs & H).
  - simpl; tauto.
  - exact G3.
  - intros l. apply Permutation_refl.
  - intros s k l. apply Permutation_refl.
  - intros s k l x Hx. exact Hx.
  - exact G2.
  - lia.
  - discriminate.
  - constructor; [exact G5|constructor; [exact G5|constructor]].
  - exists tb, c, ch, sd, s. split; [exact G1|]. split; [exact G5|]. split.
    { unfold peaks_gx_answer, gx_individual, gx_toolbox. rewrite G1, G4. exact E. }
    split; [exact F|]. split; [exact Hs|]. split; [apply H; left; reflexivity|].
    intros k m. apply (peaks_within_workforce None sx_graph sx_contractors sx_spec px_nodes sd k m); [|exact px_graph_ok|left; exact F].
    split; [repeat constructor; simpl; intuition discriminate|]. intros ct [<-|[<-|[]]]; (split; [repeat constructor; simpl; intuition discriminate|]);
      simpl; intros k' n [[= <- <-]|[[= <- <-]|[]]]; lia.
Qed.
(** The sum of the peaks of the first population and of the answer. *)
Example peaks_gx_values :
  option_map (fun c => match gx_toolbox with Some tb => option_map (peaks_sum None) (serial sx_graph sx_est sx_contractors tb 0 c) | None => None end) gx_individual = Some (Some 4) /\
  option_map (map (fun a => (peaks_sum None (snd a), peak_usage None (snd a)))) (peaks_gx_answer (peaks_fitness None)) = Some [(4, [(0%nat, 3); (1%nat, 1)])].
Proof. vm_compute. split; reflexivity. Qed.

(** ** Findings *)
(** SumOfResourcesFitness: the sum of the usage raises for every schedule with a worker. *)
Theorem resources_sum_raises :
  forall sd, (exists n w x, In (n, w) sd /\ In x (sw_team w)) -> resources_sum sd = None.
Proof.
  intros sd (n & w & x & Hn & Hx). induction sd as [|[n' w'] sd IH]; [destruct Hn|]. cbn [resources_sum]. destruct Hn as [[= -> ->]|Hn].
  - destruct (sw_team w); [destruct Hx|reflexivity].
  - rewrite (IH Hn). destruct (team_sum _ _); reflexivity.
Qed.
Print Assumptions resources_sum_raises.
Example ux_resources_sum : resources_sum ux_sched = None.
Proof. vm_compute. reflexivity. Qed.
(** DeadlineResourcesFitness, "requires the end time to meet the deadline": a schedule of
    the same work that misses the deadline of 15 can be preferred to one that meets it. *)
Definition on_time : sched := [(0%nat, SW 0 10 [Wk 0 0 2] 0)].
Definition late : sched := [(0%nat, SW 0 20 [Wk 0 0 1] 0)].
Theorem late_schedule_preferred :
  latest_finish on_time 10 /\ latest_finish late 20 /\
  (deadline_resources 15 None late < deadline_resources 15 None on_time)%Q.
Proof.
  split; [|split; [|vm_compute; reflexivity]].
  - split; [intros n w [[= <- <-]|[]]; vm_compute; discriminate|]. exists 0%nat. eexists. split; [left; reflexivity|reflexivity].
  - split; [intros n w [[= <- <-]|[]]; vm_compute; discriminate|]. exists 0%nat. eexists. split; [left; reflexivity|reflexivity].
Qed.
Print Assumptions late_schedule_preferred.
(** The price that a user sets for a worker is lost: the cost of a worker of a team is that
    of a worker created without price. *)
Theorem price_ignored :
  forall count mean price n, get_cost (team_worker (new_worker count mean price) n) = get_cost (new_worker n mean None).
Proof. reflexivity. Qed.
Print Assumptions price_ignored.
Example price_ignored_witness :
  ~ (get_cost (team_worker (new_worker 5 1 (Some 300%Q)) 2) == get_cost (new_worker 2 1 (Some 300%Q)))%Q.
Proof. vm_compute. discriminate. Qed.
