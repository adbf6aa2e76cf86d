(** Lemmas about deliveries over roads. *)
From Coq Require Import ZArith List Bool Lia Arith Sorted Permutation ZifyBool ZifyNat.
From Verif Require Import TimeModel MomentumSpec SupplyModel SupplySpec SupplyProofs.
Import ListNotations.
Local Open Scope Z_scope.

(** ** Roads *)
Lemma drives_app_none r n t rs bs t' ov : drives ov n t rs bs t' -> ~ In r rs -> on_road r bs = [].
Proof.
  revert t bs. induction rs as [|k rs IH]; intros t [|[k' b] bs] H N; simpl in H; try contradiction; [reflexivity|].
  destruct H as (-> & _ & _ & _ & H). unfold on_road. simpl. destruct (Nat.eqb_spec k r) as [->|Ne]; [exfalso; apply N; left; reflexivity|].
  apply (IH _ _ H). intros Hin; apply N; right; exact Hin.
Qed.
Lemma drives_times n t rs bs t' ov : (forall r, 0 < ov r) -> drives ov n t rs bs t' ->
  t <= t' /\ forall r b, In (r, b) bs -> In r rs /\ t <= b_start b < b_end b /\ b_end b <= t' /\ b_count b = n.
Proof.
  intros Hov. revert t bs. induction rs as [|k rs IH]; intros t [|[k' b] bs] H; simpl in H; try contradiction; [split; [lia|intros ? ? []]|].
  destruct H as (-> & H1 & H2 & H3 & H). destruct (IH _ _ H) as [I1 I2]. assert (Hk := Hov k). split; [lia|].
  intros r x [[= <- <-]|Hin]; [simpl; split; [auto|lia]|]. destruct (I2 r x Hin) as (J1 & J2 & J3 & J4). simpl. split; [auto|lia].
Qed.
Lemma drives_load n t rs bs t' ov r x : (forall r, 0 < ov r) -> NoDup rs -> drives ov n t rs bs t' ->
  load (on_road r bs) x = 0 \/ exists b, In (r, b) bs /\ active b x = true /\ load (on_road r bs) x = n.
Proof.
  intros Hov. revert t bs. induction rs as [|k rs IH]; intros t [|[k' b] bs] N H; simpl in H; try contradiction; [left; reflexivity|].
  destruct H as (-> & H1 & H2 & H3 & H). apply NoDup_cons_iff in N as [N1 N2]. unfold on_road. simpl. destruct (Nat.eqb_spec k r) as [->|Ne].
  - simpl. fold (on_road r bs). rewrite (drives_app_none _ _ _ _ _ _ _ H N1). simpl. destruct (active b x) eqn:Ea; [|left; reflexivity].
    right. exists b. split; [left; reflexivity|]. split; [exact Ea|lia].
  - fold (on_road r bs). destruct (IH _ _ N2 H) as [E|(y & Hy & Ey & E)]; [left; exact E|right; exists y; split; [right; exact Hy|auto]].
Qed.
Lemma on_road_app r a b : on_road r (a ++ b) = on_road r a ++ on_road r b.
Proof. unfold on_road. rewrite filter_app, map_app. reflexivity. Qed.
Lemma on_road_in r b bs : In b (on_road r bs) <-> In (r, b) bs.
Proof.
  unfold on_road. rewrite in_map_iff. split.
  - intros ([k x] & <- & H). apply filter_In in H as [H E]. simpl in *. apply Nat.eqb_eq in E as ->. exact H.
  - intros H. exists (r, b). split; [reflexivity|]. apply filter_In. split; [exact H|]. simpl. apply Nat.eqb_refl.
Qed.
Lemma load_rev l t : load (rev l) t = load l t.
Proof. induction l as [|b l IH]; [reflexivity|]. simpl. rewrite load_app, IH. simpl. lia. Qed.

Lemma book_roads_ok (bw : nat -> Z) roads rb bs : (forall r, tracks (bw r) (roads r) (rb r)) ->
  (forall r b, In (r, b) bs -> 0 <= b_start b < b_end b /\ 0 <= b_count b) ->
  (forall r x, load (on_road r bs) x + load (rb r) x <= bw r) ->
  exists roads', book_roads roads bs = Fine roads' /\ forall r, tracks (bw r) (roads' r) (rev (on_road r bs) ++ rb r).
Proof.
  revert roads rb. induction bs as [|[k b] bs IH]; intros roads rb T V F; [exists roads; split; [reflexivity|exact T]|]. simpl.
  destruct (V k b (or_introl eq_refl)) as [V1 V2].
  destruct (book_ok _ _ _ (b_count b) (b_start b) (b_end b) (T k) V1 V2) as (l' & El & Tl).
  { intros t Ht. specialize (F k t). unfold on_road in F. simpl in F. rewrite Nat.eqb_refl in F. simpl in F. fold (on_road k bs) in F.
    assert (0 <= load (on_road k bs) t) by (apply load_nonneg; intros y Hy; apply on_road_in in Hy; apply (V k y); right; exact Hy).
    unfold active in F. destruct (Z.leb_spec (b_start b) t), (Z.ltb_spec t (b_end b)); try lia; simpl in F; lia. }
  rewrite El. set (rb' := upd rb k (b :: rb k)). assert (Eb : Bk (b_start b) (b_end b) (b_count b) = b) by (destruct b; reflexivity). rewrite Eb in Tl.
  destruct (IH (upd roads k l') rb') as (roads' & Er & Tr).
  - intros r. unfold rb', upd. destruct (Nat.eqb_spec r k) as [->|Ne]; [exact Tl|apply T].
  - intros r y Hy. apply V with r. right. exact Hy.
  - intros r x. specialize (F r x). unfold rb', upd. unfold on_road in F. simpl in F. destruct (Nat.eqb_spec r k) as [E|Ne].
    + subst r. rewrite Nat.eqb_refl in F. simpl in F. fold (on_road k bs) in F. simpl. lia.
    + destruct (Nat.eqb_spec k r); [congruence|]. exact F.
  - exists roads'. split; [exact Er|]. intros r. specialize (Tr r). unfold rb', upd in Tr. unfold on_road. simpl. destruct (Nat.eqb_spec r k) as [E|Ne].
    + subst r. rewrite Nat.eqb_refl. simpl. rewrite <- app_assoc. exact Tr.
    + destruct (Nat.eqb_spec k r); [congruence|]. exact Tr.
Qed.

Definition top (l : events) (M : Z) : Prop := forall e, In e l -> ev_time e <= M.
Lemma tracks_top cap l bs M : tracks cap l bs -> 0 <= M -> (forall b, In b bs -> b_end b <= M) -> top l M.
Proof.
  intros T HM H e He. destruct (tk_times _ _ _ T e He) as [->|(b & Hb & E)]; [exact HM|]. destruct (tk_bookings _ _ _ T b Hb). specialize (H b Hb). lia.
Qed.

Lemma drive_ok overcome (bw : nat -> Z) roads rb n t rs M : (forall r, 0 < overcome r) -> (forall r, tracks (bw r) (roads r) (rb r)) ->
  (forall r, top (roads r) M) -> M < TIME_INF -> 0 <= t -> (forall r, In r rs -> n <= bw r) ->
  exists t' bs, drive overcome roads n t rs = Fine (t', bs) /\ drives overcome n t rs bs t' /\ t' <= Z.max t M + trip overcome rs /\
    forall r b, In (r, b) bs -> forall x, active b x = true -> load (rb r) x + n <= bw r.
Proof.
  intros Hov T HM Hinf. revert t. induction rs as [|r rs IH]; intros t Ht Hn.
  - exists t, []. simpl. repeat split; [lia|]. intros ? ? [].
  - simpl. destruct (earliest_spec _ _ _ n t (overcome r) (T r)) as (v & Ev & V1 & V2 & V3 & _); [intros e He; specialize (HM r e He); lia|exact Ht|apply Hov|].
    rewrite Ev. assert (Hr := Hov r). destruct (IH (v + overcome r)) as (t' & bs & Ed & D & Bd & F); [lia|intros; apply Hn; right; assumption|].
    rewrite Ed. exists t', ((r, Bk v (v + overcome r) n) :: bs). simpl. split; [reflexivity|]. split; [repeat split; [lia|exact D]|].
    assert (Hv : v <= Z.max t M).
    { destruct V2 as [->|V2]; [lia|]. apply in_map_iff in V2 as (e & <- & He). specialize (HM r e He). lia. }
    split; [lia|]. intros k b [[= <- <-]|Hin] x Hx; [|apply (F k b Hin x Hx)]. unfold active in Hx. cbn [b_start b_end] in Hx. apply V3; [apply Hn; left; reflexivity|lia].
Qed.

(** ** Vehicles *)
Lemma ceil_div_spec a b : 0 < b -> a <= ceil_div a b * b < a + b.
Proof. intros H. unfold ceil_div. assert (E := Z.div_mod (- a) b ltac:(lia)). assert (B := Z.mod_pos_bound (- a) b H). nia. Qed.
Lemma amount_in m c r : NoDup (map fst r) -> In (m, c) r -> amount m r = Some c.
Proof.
  induction r as [|[k x] r IH]; intros N H; [destruct H|]. simpl in *. apply NoDup_cons_iff in N as [N1 N2]. destruct H as [[= <- <-]|H]; [rewrite Nat.eqb_refl; reflexivity|].
  destruct (Nat.eqb_spec k m) as [->|Ne]; [|auto]. exfalso. apply N1. apply in_map_iff. exists (m, c). auto.
Qed.
Lemma amount_some m c r : amount m r = Some c -> In (m, c) r.
Proof.
  induction r as [|[k x] r IH]; [discriminate|]. simpl. destruct (Nat.eqb_spec k m) as [->|Ne]; [intros [= ->]; auto|auto].
Qed.
Lemma fold_max_le l x : x <= fold_left Z.max l x /\ forall y, In y l -> y <= fold_left Z.max l x.
Proof.
  revert x. induction l as [|z l IH]; intros x; simpl; [split; [lia|intros ? []]|]. destruct (IH (Z.max x z)) as [H1 H2].
  split; [lia|]. intros y [<-|Hy]; [lia|auto].
Qed.
Lemma fold_max_in l x : In (fold_left Z.max l x) (x :: l).
Proof.
  revert x. induction l as [|z l IH]; intros x; [left; reflexivity|]. change (fold_left Z.max (z :: l) x) with (fold_left Z.max l (Z.max x z)).
  destruct (IH (Z.max x z)) as [E|H]; [|right; right; exact H]. rewrite <- E. destruct (Z.max_spec x z) as [[_ ->]|[_ ->]]; [right; left; reflexivity|left; reflexivity].
Qed.
Lemma vehicles_needed_ok d r : NoDup (map fst r) -> (forall m q, In (m, q) (dp_carries d) -> 0 < q) ->
  (exists m c q, In (m, c) r /\ In (m, q) (dp_carries d)) -> (forall m c, In (m, c) r -> 0 < c) ->
  exists n, vehicles_needed d r = Some n /\ 0 < n /\ vehicles_for d r n.
Proof.
  intros N Q (m0 & c0 & q0 & H0 & H0') C. unfold vehicles_needed.
  set (loads := concat (map (fun x => match amount (fst x) r with Some c => [(c, snd x)] | None => [] end) (dp_carries d))).
  assert (L : forall c q, In (c, q) loads <-> exists m, In (m, c) r /\ In (m, q) (dp_carries d)).
  { intros c q. unfold loads. rewrite in_concat. split.
    - intros (l & Hl & Hin). apply in_map_iff in Hl as ([m q'] & <- & Hc). simpl in Hin. destruct (amount m r) as [c'|] eqn:Ea; [|destruct Hin].
      destruct Hin as [[= <- <-]|[]]. exists m. split; [apply amount_some; exact Ea|exact Hc].
    - intros (m & H1 & H2). exists [(c, q)]. split; [|left; reflexivity]. apply in_map_iff. exists (m, q). split; [|exact H2]. simpl. rewrite (amount_in m c r N H1). reflexivity. }
  assert (E : existsb (fun x => snd x =? 0) loads = false).
  { apply not_true_iff_false. intros H. apply existsb_exists in H as ([c q] & Hin & H). apply L in Hin as (m & _ & Hq). specialize (Q m q Hq). simpl in H. lia. }
  rewrite E. destruct loads as [|[c1 q1] loads'] eqn:El.
  { exfalso. assert (In (c0, q0) []) by (apply L; eauto). destruct H. }
  cbn [map fst snd]. eexists. split; [reflexivity|]. destruct (fold_max_le (map (fun x => ceil_div (fst x) (snd x)) loads') (ceil_div c1 q1)) as [M1 M2].
  assert (M : forall c q, In (c, q) ((c1, q1) :: loads') -> ceil_div c q <= fold_left Z.max (map (fun x => ceil_div (fst x) (snd x)) loads') (ceil_div c1 q1)).
  { intros c q [[= <- <-]|Hin]; [exact M1|]. apply M2. apply in_map_iff. exists (c, q). auto. }
  split.
  - assert (In (c1, q1) ((c1, q1) :: loads')) as Hin by (left; reflexivity). destruct (proj1 (L c1 q1) Hin) as (m & H1 & H2). specialize (C m c1 H1). specialize (Q m q1 H2).
    assert (G := ceil_div_spec c1 q1 Q). nia.
  - split.
    + intros m c q H1 H2. specialize (Q m q H2). assert (G := ceil_div_spec c q Q). assert (G2 := M c q (proj2 (L c q) (ex_intro _ m (conj H1 H2)))). nia.
    + assert (A := fold_max_in (map (fun x => ceil_div (fst x) (snd x)) loads') (ceil_div c1 q1)).
      change (ceil_div c1 q1 :: map (fun x => ceil_div (fst x) (snd x)) loads') with (map (fun x => ceil_div (fst x) (snd x)) ((c1, q1) :: loads')) in A.
      apply in_map_iff in A as ([c q] & E2 & Hin). simpl in E2. destruct (proj1 (L c q) Hin) as (m & H1 & H2). exists m, c, q. split; [exact H1|]. split; [exact H2|].
      rewrite <- E2. specialize (Q m q H2). assert (G := ceil_div_spec c q Q). nia.
Qed.
