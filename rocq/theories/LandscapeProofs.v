(** Proofs about routes in land graphs. *)
From Coq Require Import ZArith List Bool Lia.
From Verif Require Import TopoModel TopoProofs StableSort LandscapeModel.
Import ListNotations.
Local Open Scope Z_scope.

(** ** Specification *)
(** Road [k] of length [w] leads from [u] to [v] (roads can be used both ways). *)
Definition joined (joins : list (nat * nat * Z)) (k u v : nat) (w : Z) : Prop :=
  nth_error joins k = Some (u, v, w) \/ nth_error joins k = Some (v, u, w).
(** A route of length [d] along the roads [ids], all of which satisfy [A]. *)
Inductive route (joins : list (nat * nat * Z)) (A : nat -> Prop) : nat -> nat -> list nat -> Z -> Prop :=
| route_one k u v w : A k -> joined joins k u v w -> route joins A u v [k] w
| route_cons k u m v w ids d : A k -> joined joins k u m w -> route joins A m v ids d -> route joins A u v (k :: ids) (w + d).
(** Nodes below [n], positive lengths, no road from a node to itself, at most one road
    between two nodes. *)
Record good_roads (n : nat) (joins : list (nat * nat * Z)) : Prop := {
  gr_range : forall k u v w, joined joins k u v w -> (u < n)%nat /\ (v < n)%nat;
  gr_pos : forall k u v w, joined joins k u v w -> 0 < w;
  gr_loop : forall k u v w, joined joins k u v w -> u <> v;
  gr_simple : forall k k' u v w w', joined joins k u v w -> joined joins k' u v w' -> k = k'
}.

Lemma joined_sym joins k u v w : joined joins k u v w -> joined joins k v u w.
Proof. intros [H|H]; [right|left]; exact H. Qed.
Lemma route_snoc joins A u v ids d : route joins A u v ids d -> forall k x w, A k -> joined joins k v x w -> route joins A u x (ids ++ [k]) (d + w).
Proof.
  induction 1 as [k u v w Hk Hj|k u m v w ids d Hk Hj Hr IH]; intros k' x w' Hk' Hj'; cbn [app].
  - eapply route_cons; [exact Hk|exact Hj|]. apply route_one; assumption.
  - replace (w + d + w') with (w + (d + w')) by lia. eapply route_cons; [exact Hk|exact Hj|]. apply IH; assumption.
Qed.
Lemma route_app joins A u v ids d : route joins A u v ids d -> forall x ids' d', route joins A v x ids' d' -> route joins A u x (ids ++ ids') (d + d').
Proof.
  induction 1 as [k u v w Hk Hj|k u m v w ids d Hk Hj Hr IH]; intros x ids' d' Hr'; cbn [app].
  - eapply route_cons; eauto.
  - replace (w + d + d') with (w + (d + d')) by lia. eapply route_cons; eauto.
Qed.
Lemma route_rev joins A u v ids d : route joins A u v ids d -> route joins A v u (rev ids) d.
Proof.
  induction 1 as [k u v w Hk Hj|k u m v w ids d Hk Hj Hr IH]; cbn [rev app].
  - apply route_one; [exact Hk|apply joined_sym, Hj].
  - rewrite Z.add_comm. eapply route_snoc; [exact IH|exact Hk|apply joined_sym, Hj].
Qed.
Lemma route_range n joins A u v ids d : good_roads n joins -> route joins A u v ids d -> (u < n)%nat /\ (v < n)%nat /\ 0 < d.
Proof.
  intros G. induction 1 as [k u v w Hk Hj|k u m v w ids d Hk Hj Hr IH].
  - assert (A1 := gr_range _ _ G _ _ _ _ Hj). assert (A2 := gr_pos _ _ G _ _ _ _ Hj). tauto.
  - assert (A1 := gr_range _ _ G _ _ _ _ Hj). assert (A2 := gr_pos _ _ G _ _ _ _ Hj). intuition lia.
Qed.

(** ** The roads of a node *)
Lemma roads_from_in : forall joins k x r, In r (roads_from k joins x) <->
  exists j, rd_id r = (k + j)%nat /\ (nth_error joins j = Some (x, rd_finish r, rd_weight r) \/ nth_error joins j = Some (rd_finish r, x, rd_weight r)).
Proof.
  induction joins as [|[[u v] w] joins IH]; intros k x r; cbn [roads_from].
  - split; [intros []|]. intros (j & _ & [H|H]); destruct j; discriminate.
  - rewrite !in_app_iff, IH. split.
    + intros [H|[H|(j & E & H)]].
      * destruct (Nat.eqb_spec x u) as [->|]; [|destruct H]. destruct H as [<-|[]]. exists 0%nat. cbn [rd_id rd_finish rd_weight nth_error]. split; [lia|auto].
      * destruct (Nat.eqb_spec x v) as [->|]; [|destruct H]. destruct H as [<-|[]]. exists 0%nat. cbn [rd_id rd_finish rd_weight nth_error]. split; [lia|auto].
      * exists (S j). cbn [nth_error]. split; [lia|exact H].
    + intros (j & E & H). destruct j as [|j]; cbn [nth_error] in H.
      * destruct r as [i f w']. cbn [rd_id rd_finish rd_weight] in *. rewrite Nat.add_0_r in E. subst i.
        destruct H as [[= -> -> ->]|[= -> -> ->]]; rewrite Nat.eqb_refl; [left|right; left]; left; reflexivity.
      * right. right. exists j. split; [lia|exact H].
Qed.
Lemma roads_of_in joins x r : In r (roads_of joins x) <-> joined joins (rd_id r) x (rd_finish r) (rd_weight r).
Proof.
  unfold roads_of, joined. rewrite roads_from_in. split.
  - intros (j & E & H). cbn [Nat.add] in E. subst j. exact H.
  - intros H. exists (rd_id r). split; [reflexivity|exact H].
Qed.
Lemma last_road_spec l j : match last_road l j with
  | Some r => In r l /\ rd_finish r = j
  | None => forall r, In r l -> rd_finish r <> j end.
Proof.
  unfold last_road.
  assert (K : forall l acc, match fold_left (fun acc r => if Nat.eqb (rd_finish r) j then Some r else acc) l acc with
     | Some r => (In r l /\ rd_finish r = j) \/ acc = Some r
     | None => acc = None /\ forall r, In r l -> rd_finish r <> j end).
  { induction l0 as [|r l0 IH]; intros acc; cbn [fold_left]; [destruct acc; [right; reflexivity|split; [reflexivity|intros r []]]|].
    specialize (IH (if Nat.eqb (rd_finish r) j then Some r else acc)).
    destruct (fold_left _ l0 _) as [r'|].
    - destruct IH as [[H1 H2]|H]; [left; split; [right; exact H1|exact H2]|].
      destruct (Nat.eqb_spec (rd_finish r) j); [injection H as <-; left; split; [left; reflexivity|assumption]|right; exact H].
    - destruct (Nat.eqb_spec (rd_finish r) j); destruct IH as [H1 H2]; [discriminate|]. split; [exact H1|]. intros r' [<-|Hr]; auto. }
  specialize (K l None). destruct (fold_left _ l None); [destruct K as [K|K]; [exact K|discriminate]|apply K].
Qed.

Section Good.
  Variables (n : nat) (joins : list (nat * nat * Z)).
  Hypothesis G : good_roads n joins.

  Lemma joined_weight k k' u v w w' : joined joins k u v w -> joined joins k' u v w' -> w = w'.
  Proof.
    intros H H'. assert (k = k') by (eapply gr_simple; eauto). subst k'. assert (Hl := gr_loop _ _ G _ _ _ _ H).
    destruct H as [H|H], H' as [H'|H']; rewrite H in H'; injection H'; intros; congruence.
  Qed.
  Lemma last_road_joined u v : match last_road (roads_of joins u) v with
    | Some r => joined joins (rd_id r) u v (rd_weight r)
    | None => forall k w, ~ joined joins k u v w end.
  Proof.
    assert (A := last_road_spec (roads_of joins u) v). destruct (last_road (roads_of joins u) v) as [r|].
    - destruct A as [A1 <-]. apply roads_of_in, A1.
    - intros k w H. apply (A (Rd k v w)); [apply roads_of_in; exact H|reflexivity].
  Qed.
  Lemma adj_joined u v w : adj_matrix joins u v = Some w <-> exists k, joined joins k u v w.
  Proof.
    unfold adj_matrix. assert (A := last_road_joined u v). destruct (last_road (roads_of joins u) v) as [r|]; cbn [option_map].
    - split; [intros [= <-]; eauto|]. intros [k Hk]. f_equal. eapply joined_weight; eauto.
    - split; [discriminate|]. intros [k Hk]. exfalso. eapply A; eauto.
  Qed.
  Lemma road_matrix_joined k u v w : joined joins k u v w -> road_matrix joins u v = Some k.
  Proof.
    intros H. unfold road_matrix, adj_matrix. assert (Hl := gr_loop _ _ G _ _ _ _ H). destruct (Nat.eqb_spec u v); [contradiction|].
    assert (A := last_road_joined u v). destruct (last_road (roads_of joins u) v) as [r|]; cbn [option_map].
    - f_equal. eapply gr_simple; eauto.
    - exfalso. eapply A; eauto.
  Qed.

  (** ** One phase updates all entries at once *)
  Notation state := (matrix (option Z) * matrix Z)%type.
  Definition updated (i : nat) (st : state) (u v : nat) : option Z * Z :=
    match shorter (fst st u i) (fst st i v) (fst st u v) with
    | Some d => (Some d, snd st i v)
    | None => (fst st u v, snd st u v)
    end.
  Definition positive (d : matrix (option Z)) : Prop := forall u v x, d u v = Some x -> 0 < x.
  Definition entry (st : state) (u v : nat) : option Z * Z := (fst st u v, snd st u v).

  Lemma shorter_left i (st : state) v : positive (fst st) -> shorter (fst st i i) (fst st i v) (fst st i v) = None.
  Proof.
    intros P. unfold shorter. destruct (fst st i i) as [x|] eqn:Ex; [|reflexivity]. destruct (fst st i v) as [y|] eqn:Ey; [|reflexivity].
    destruct (negb (x =? 0) && negb (y =? 0)); [|reflexivity]. apply P in Ex. destruct (Z.ltb_spec (x + y) y); [lia|reflexivity].
  Qed.
  Lemma shorter_right i (st : state) u : positive (fst st) -> shorter (fst st u i) (fst st i i) (fst st u i) = None.
  Proof.
    intros P. unfold shorter. destruct (fst st u i) as [x|] eqn:Ex; [|reflexivity]. destruct (fst st i i) as [y|] eqn:Ey; [|reflexivity].
    destruct (negb (x =? 0) && negb (y =? 0)); [|reflexivity]. apply P in Ey. destruct (Z.ltb_spec (x + y) x); [lia|reflexivity].
  Qed.
  (** [st'] agrees with [st] or with the update. *)
  Definition between (i : nat) (st st' : state) (done : nat -> nat -> Prop) : Prop :=
    forall u v, (done u v -> entry st' u v = updated i st u v) /\ (~ done u v -> entry st' u v = entry st u v).
  Lemma fixed_entries i (st st' : state) done : positive (fst st) -> (forall u v, done u v \/ ~ done u v) -> between i st st' done ->
    (forall u, fst st' u i = fst st u i) /\ (forall v, fst st' i v = fst st i v) /\ (forall v, snd st' i v = snd st i v).
  Proof.
    intros P Dec B. assert (K : forall u v, u = i \/ v = i -> entry st' u v = entry st u v).
    { intros u v H. destruct (B u v) as [B1 B2]. destruct (Dec u v) as [D|D]; [|apply B2, D]. rewrite (B1 D). unfold updated.
      destruct H as [->| ->]; [rewrite shorter_left by exact P|rewrite shorter_right by exact P]; reflexivity. }
    split; [|split]; intros x; [assert (A := K x i (or_intror eq_refl))|assert (A := K i x (or_introl eq_refl))|assert (A := K i x (or_introl eq_refl))];
      unfold entry in A; injection A; auto.
  Qed.
  Lemma fw_step_between i u v (st st' : state) done : positive (fst st) -> (forall u v, done u v \/ ~ done u v) -> ~ done u v -> between i st st' done ->
    between i st (fw_step i u st' v) (fun a b => done a b \/ (a = u /\ b = v)).
  Proof.
    intros P Dec Hn B. destruct (fixed_entries i st st' done P Dec B) as (F1 & F2 & F3).
    assert (Huv : fst st' u v = fst st u v /\ snd st' u v = snd st u v) by (destruct (B u v) as [_ B2]; specialize (B2 Hn); unfold entry in B2; injection B2; auto).
    destruct Huv as [Hu1 Hu2].
    assert (E : forall a b, entry (fw_step i u st' v) a b = if Nat.eqb a u && Nat.eqb b v then updated i st u v else entry st' a b).
    { intros a b. unfold fw_step, updated. destruct st' as [d' p']. cbn [fst snd] in *. rewrite F1, F2, Hu1.
      destruct (shorter (fst st u i) (fst st i v) (fst st u v)) as [x|]; unfold entry, mset; cbn [fst snd].
      - rewrite F3. destruct (Nat.eqb a u && Nat.eqb b v); reflexivity.
      - destruct (Nat.eqb_spec a u) as [->|]; [|reflexivity]. destruct (Nat.eqb_spec b v) as [->|]; [|reflexivity]. cbn [andb]. congruence. }
    intros a b. rewrite E. destruct (Nat.eqb_spec a u) as [->|Ha]; cbn [andb].
    - destruct (Nat.eqb_spec b v) as [->|Hb].
      + split; [reflexivity|]. intros H. exfalso. apply H. right. auto.
      + split; [intros [H|[_ H]]; [apply B, H|contradiction]|]. intros H. apply B. intros H'. apply H. left. exact H'.
    - split; [intros [H|[H _]]; [apply B, H|contradiction]|]. intros H. apply B. intros H'. apply H. left. exact H'.
  Qed.
  Lemma between_ext i st st' d1 d2 : (forall u v, d1 u v <-> d2 u v) -> between i st st' d1 -> between i st st' d2.
  Proof. intros E B u v. destruct (B u v) as [B1 B2]. split; intros H; [apply B1, E, H|apply B2]. intros H'. apply H, E, H'. Qed.
  Lemma fw_row_between i u (st : state) : positive (fst st) -> forall l st' done, NoDup l -> (forall u v, done u v \/ ~ done u v) -> (forall v, In v l -> ~ done u v) -> between i st st' done ->
    between i st (fold_left (fw_step i u) l st') (fun a b => done a b \/ (a = u /\ In b l)).
  Proof.
    intros P. induction l as [|v l IH]; intros st' done Hnd Dec Hn B; cbn [fold_left].
    - eapply between_ext; [|exact B]. intros a b. simpl. tauto.
    - inversion Hnd as [|? ? N1 N2]; subst. eapply between_ext; [|apply (IH (fw_step i u st' v) (fun a b => done a b \/ (a = u /\ b = v)))].
      + intros a b. simpl. intuition.
      + exact N2.
      + intros a b. destruct (Dec a b); [left; left; assumption|]. destruct (Nat.eq_dec a u), (Nat.eq_dec b v); subst; try (left; right; auto; fail); right; intros [H1|[H1 H2]]; contradiction.
      + intros b Hb [H|[_ H]]; [exact (Hn b (or_intror Hb) H)|subst b; contradiction].
      + apply fw_step_between; [exact P|exact Dec|apply Hn; left; reflexivity|exact B].
  Qed.
  Lemma fw_phase_between i (st : state) : positive (fst st) -> forall l st' done, NoDup l -> (forall u v, done u v \/ ~ done u v) -> (forall u v, In u l -> ~ done u v) -> between i st st' done ->
    between i st (fold_left (fw_row n i) l st') (fun a b => done a b \/ (In a l /\ (b < n)%nat)).
  Proof.
    intros P. induction l as [|u l IH]; intros st' done Hnd Dec Hn B; cbn [fold_left].
    - eapply between_ext; [|exact B]. intros a b. simpl. tauto.
    - inversion Hnd as [|? ? N1 N2]; subst.
      eapply between_ext; [|apply (IH (fw_row n i st' u) (fun a b => done a b \/ (a = u /\ In b (seq 0 n))))].
      + intros a b. simpl. rewrite in_seq. intuition (subst; auto; try lia).
      + exact N2.
      + intros a b. destruct (Dec a b); [left; left; assumption|]. destruct (Nat.eq_dec a u) as [->|], (in_dec Nat.eq_dec b (seq 0 n)); try (left; right; auto; fail); right; intros [H1|[H1 H2]]; contradiction.
      + intros a b Ha [H|[H _]]; [exact (Hn a b (or_intror Ha) H)|subst a; contradiction].
      + apply fw_row_between; [exact P|apply seq_NoDup|exact Dec|intros v _; apply Hn; left; reflexivity|exact B].
  Qed.
  Lemma fw_phase_updates i (st : state) : positive (fst st) -> forall u v, (u < n)%nat -> (v < n)%nat -> entry (fw_phase n st i) u v = updated i st u v.
  Proof.
    intros P u v Hu Hv. unfold fw_phase. apply (fw_phase_between i st P (seq 0 n) st (fun _ _ => False)).
    - apply seq_NoDup.
    - intros; right; intros [].
    - intros ? ? _ [].
    - intros a b. split; [intros []|reflexivity].
    - right. split; [apply in_seq; lia|exact Hv].
  Qed.
  (** Entries outside of the matrix stay as they are. *)
  Lemma fw_phase_outside i (st : state) : positive (fst st) -> forall u v, ~ ((u < n)%nat /\ (v < n)%nat) -> entry (fw_phase n st i) u v = entry st u v.
  Proof.
    intros P u v Huv. unfold fw_phase. apply (fw_phase_between i st P (seq 0 n) st (fun _ _ => False)).
    - apply seq_NoDup.
    - intros; right; intros [].
    - intros ? ? _ [].
    - intros a b. split; [intros []|reflexivity].
    - intros [[]|[H1 H2]]. apply in_seq in H1. apply Huv. lia.
  Qed.
  Lemma updated_cases i (st : state) u v : positive (fst st) ->
    (exists x y, fst st u i = Some x /\ fst st i v = Some y /\ (forall z, fst st u v = Some z -> x + y < z) /\ updated i st u v = (Some (x + y), snd st i v)) \/
    (updated i st u v = entry st u v /\ forall x y, fst st u i = Some x -> fst st i v = Some y -> exists z, fst st u v = Some z /\ z <= x + y).
  Proof.
    intros P. unfold updated, shorter, entry. destruct (fst st u i) as [x|] eqn:Ex; [|right; split; [reflexivity|discriminate]].
    destruct (fst st i v) as [y|] eqn:Ey; [|right; split; [reflexivity|discriminate]].
    assert (Px := P _ _ _ Ex). assert (Py := P _ _ _ Ey).
    destruct (Z.eqb_spec x 0); [lia|]. destruct (Z.eqb_spec y 0); [lia|]. cbn [negb andb].
    destruct (fst st u v) as [z|] eqn:Ez.
    - destruct (Z.ltb_spec (x + y) z); [left|right].
      + exists x, y. repeat split; auto. intros z' [= <-]. assumption.
      + split; [reflexivity|]. intros x' y' [= <-] [= <-]. exists z. auto.
    - left. exists x, y. repeat split; auto. discriminate.
  Qed.

  (** ** Invariant of the phases *)
  Notation any := (fun _ : nat => True).
  (** Routes whose inner nodes are below [k]. *)
  Inductive below (k : nat) : nat -> nat -> Z -> Prop :=
  | below_one j u v w : joined joins j u v w -> below k u v w
  | below_cons j u m v w d : joined joins j u m w -> (m < k)%nat -> below k m v d -> below k u v (w + d).
  Lemma below_split k u v d : below (S k) u v d -> below k u v d \/ exists d1 d2, below k u k d1 /\ below k k v d2 /\ d1 + d2 <= d.
  Proof.
    induction 1 as [j u v w Hj|j u m v w d Hj Hm Hb IH]; [left; eapply below_one; eauto|].
    assert (Hw := gr_pos _ _ G _ _ _ _ Hj).
    destruct (Nat.eq_dec m k) as [->|Hne].
    - right. destruct IH as [IH|(d1 & d2 & I1 & I2 & I3)].
      + exists w, d. repeat split; [eapply below_one; eauto|exact IH|lia].
      + exists w, d2. repeat split; [eapply below_one; eauto|exact I2|].
        assert (0 < d1) by (clear - I1 G; induction I1 as [j u v w Hj|j u m v w d Hj Hm Hb IH]; assert (Hw := gr_pos _ _ G _ _ _ _ Hj); lia). lia.
    - assert (m < k)%nat by lia. destruct IH as [IH|(d1 & d2 & I1 & I2 & I3)].
      + left. eapply below_cons; eauto.
      + right. exists (w + d1), d2. repeat split; [eapply below_cons; eauto|exact I2|lia].
  Qed.
  Lemma route_below ids u v d : route joins any u v ids d -> below n u v d.
  Proof.
    induction 1 as [k u v w Hk Hj|k u m v w ids d Hk Hj Hr IH]; [eapply below_one; eauto|].
    eapply below_cons; [exact Hj| |exact IH]. apply (gr_range _ _ G _ _ _ _ Hj).
  Qed.
  Record fw_inv (k : nat) (st : state) : Prop := {
    fi_route : forall u v d, fst st u v = Some d -> exists ids, route joins any u v ids d;
    fi_best : forall u v d, below k u v d -> exists d', fst st u v = Some d' /\ d' <= d;
    fi_path : forall u v d, fst st u v = Some d ->
      (exists j w, snd st u v = Z.of_nat u /\ joined joins j u v w /\ w <= d) \/
      (exists p j w d', snd st u v = Z.of_nat p /\ joined joins j p v w /\ fst st u p = Some d' /\ d' + w <= d);
    fi_none : forall u v, u <> v -> fst st u v = None -> snd st u v = -1
  }.
  Lemma inv_positive k st : fw_inv k st -> positive (fst st).
  Proof. intros I u v x Hx. destruct (fi_route _ _ I _ _ _ Hx) as [ids Hr]. apply (route_range n joins _ _ _ _ _ G Hr). Qed.
  Lemma inv_range k st : fw_inv k st -> forall u v d, fst st u v = Some d -> (u < n)%nat /\ (v < n)%nat.
  Proof. intros I u v x Hx. destruct (fi_route _ _ I _ _ _ Hx) as [ids Hr]. assert (A := route_range n joins _ _ _ _ _ G Hr). tauto. Qed.

  Lemma fw_inv_start : fw_inv 0 (adj_matrix joins, first_paths joins).
  Proof.
    constructor; cbn [fst snd].
    - intros u v d H. apply adj_joined in H as [k Hk]. exists [k]. apply route_one; [exact I|exact Hk].
    - intros u v d H. inversion H; subst; [|lia]. exists d. split; [apply adj_joined; eauto|lia].
    - intros u v d H. left. unfold first_paths. assert (H' := H). apply adj_joined in H' as [k Hk]. assert (Hl := gr_loop _ _ G _ _ _ _ Hk).
      destruct (Nat.eqb_spec u v); [contradiction|]. rewrite H. exists k, d. repeat split; [exact Hk|lia].
    - intros u v Hne H. unfold first_paths. destruct (Nat.eqb_spec u v); [contradiction|]. rewrite H. reflexivity.
  Qed.
  Lemma fw_inv_phase k st : (k < n)%nat -> fw_inv k st -> fw_inv (S k) (fw_phase n st k).
  Proof.
    intros Hk I. assert (P := inv_positive _ _ I). assert (R := inv_range _ _ I).
    set (st' := fw_phase n st k).
    assert (E : forall u v, (u < n)%nat -> (v < n)%nat -> entry st' u v = updated k st u v) by (apply fw_phase_updates, P).
    assert (O : forall u v, ~ ((u < n)%nat /\ (v < n)%nat) -> entry st' u v = entry st u v) by (apply fw_phase_outside, P).
    assert (C : forall u v,
      (exists x y, fst st u k = Some x /\ fst st k v = Some y /\ (forall z, fst st u v = Some z -> x + y < z) /\ fst st' u v = Some (x + y) /\ snd st' u v = snd st k v) \/
      (fst st' u v = fst st u v /\ snd st' u v = snd st u v /\ forall x y, fst st u k = Some x -> fst st k v = Some y -> exists z, fst st u v = Some z /\ z <= x + y)).
    { intros u v. destruct (lt_dec u n) as [Hu|Hu]; [destruct (lt_dec v n) as [Hv|Hv]|].
      - specialize (E u v Hu Hv). destruct (updated_cases k st u v P) as [(x & y & U1 & U2 & U3 & U4)|[U1 U2]].
        + left. exists x, y. rewrite U4 in E. unfold entry in E. injection E as E1 E2. auto.
        + right. rewrite U1 in E. unfold entry in E. injection E as E1 E2. auto.
      - right. specialize (O u v ltac:(tauto)). unfold entry in O. injection O as O1 O2. split; [exact O1|]. split; [exact O2|].
        intros x y _ Hy. apply R in Hy. tauto.
      - right. specialize (O u v ltac:(tauto)). unfold entry in O. injection O as O1 O2. split; [exact O1|]. split; [exact O2|].
        intros x y Hx _. apply R in Hx. tauto. }
    (* distances do not grow, and the sums through [k] are taken into account *)
    assert (M : forall u v d, fst st u v = Some d -> exists d', fst st' u v = Some d' /\ d' <= d).
    { intros u v d Hd. destruct (C u v) as [(x & y & C1 & C2 & C3 & C4 & C5)|(C1 & C2 & C3)]; [exists (x + y); split; [exact C4|]; specialize (C3 d Hd); lia|].
      exists d. split; [congruence|lia]. }
    assert (V : forall u v x y, fst st u k = Some x -> fst st k v = Some y -> exists d', fst st' u v = Some d' /\ d' <= x + y).
    { intros u v x y Hx Hy. destruct (C u v) as [(x' & y' & C1 & C2 & C3 & C4 & C5)|(C1 & C2 & C3)].
      - exists (x' + y'). split; [exact C4|]. assert (x' = x) by congruence. assert (y' = y) by congruence. lia.
      - destruct (C3 x y Hx Hy) as (z & Hz & Hle). exists z. split; [congruence|exact Hle]. }
    constructor.
    - intros u v d Hd. destruct (C u v) as [(x & y & C1 & C2 & C3 & C4 & C5)|(C1 & C2 & C3)].
      + rewrite C4 in Hd. injection Hd as <-. destruct (fi_route _ _ I _ _ _ C1) as [i1 R1]. destruct (fi_route _ _ I _ _ _ C2) as [i2 R2].
        exists (i1 ++ i2). eapply route_app; eauto.
      + rewrite C1 in Hd. apply (fi_route _ _ I _ _ _ Hd).
    - intros u v d Hb. apply below_split in Hb as [Hb|(d1 & d2 & B1 & B2 & B3)].
      + destruct (fi_best _ _ I _ _ _ Hb) as (d' & H1 & H2). destruct (M _ _ _ H1) as (d'' & H3 & H4). exists d''. split; [exact H3|lia].
      + destruct (fi_best _ _ I _ _ _ B1) as (x & H1 & H2). destruct (fi_best _ _ I _ _ _ B2) as (y & H3 & H4).
        destruct (V u v x y H1 H3) as (d' & H5 & H6). exists d'. split; [exact H5|lia].
    - intros u v d Hd. destruct (C u v) as [(x & y & C1 & C2 & C3 & C4 & C5)|(C1 & C2 & C3)].
      + rewrite C4 in Hd. injection Hd as <-. rewrite C5.
        destruct (fi_path _ _ I _ _ _ C2) as [(j & w & H1 & H2 & H3)|(p & j & w & d' & H1 & H2 & H3 & H4)].
        * right. destruct (M _ _ _ C1) as (x' & H4 & H5). exists k, j, w, x'. repeat split; auto. lia.
        * right. destruct (V u p x d' C1 H3) as (z & H5 & H6). exists p, j, w, z. repeat split; auto. lia.
      + rewrite C1 in Hd. rewrite C2. destruct (fi_path _ _ I _ _ _ Hd) as [H|(p & j & w & d' & H1 & H2 & H3 & H4)]; [left; exact H|right].
        destruct (M _ _ _ H3) as (z & H5 & H6). exists p, j, w, z. repeat split; auto. lia.
    - intros u v Hne Hn. destruct (C u v) as [(x & y & C1 & C2 & C3 & C4 & C5)|(C1 & C2 & C3)]; [congruence|].
      rewrite C2. apply (fi_none _ _ I); [exact Hne|congruence].
  Qed.
  Lemma fw_inv_all : fw_inv n (fw n (adj_matrix joins, first_paths joins)).
  Proof.
    unfold fw. assert (K : forall m k st, (k + m = n)%nat -> fw_inv k st -> fw_inv n (fold_left (fw_phase n) (seq k m) st)).
    { induction m as [|m IH]; intros k st Hkm I; cbn [seq fold_left]; [replace n with k by lia; exact I|].
      apply IH; [lia|]. apply fw_inv_phase; [lia|exact I]. }
    apply (K n 0%nat); [reflexivity|apply fw_inv_start].
  Qed.

  (** ** Following hops *)
  Section Follow.
    Variables (A : nat -> Prop) (s : nat) (D : nat -> option Z) (row : nat -> Z).
    Hypothesis Hrow : forall v d, D v = Some d -> (row v = Z.of_nat s /\ exists k, A k /\ joined joins k s v d) \/
      exists p k w d', row v = Z.of_nat p /\ p <> s /\ A k /\ joined joins k p v w /\ D p = Some d' /\ d' + w = d.
    Lemma distinct_below (l : list nat) : NoDup l -> (forall x, In x l -> (x < n)%nat) -> (length l <= n)%nat.
    Proof. intros Hnd H. rewrite <- (seq_length n 0). apply NoDup_incl_length; [exact Hnd|]. intros x Hx. apply in_seq. specialize (H x Hx). lia. Qed.
    Lemma py_index_nat x : py_index n (Z.of_nat x) = x.
    Proof. unfold py_index. destruct (Z.ltb_spec (Z.of_nat x) 0); [lia|]. apply Nat2Z.id. Qed.
    Lemma follow_spec : forall fuel visited v d, D v = Some d -> NoDup visited -> (forall x, In x visited -> (x < n)%nat /\ exists dx, D x = Some dx /\ d < dx) ->
      (n < fuel + length visited)%nat ->
      exists l ids, follow fuel n row s (Z.of_nat v) = Some (Z.of_nat v :: l) /\
        roads_along n (road_matrix joins) (Z.of_nat v :: l) = map Some ids /\ route joins A v s ids d.
    Proof.
      induction fuel as [|fuel IH]; intros visited v d Hd Hnd Hvis Hf.
      - exfalso. assert (Hl := distinct_below visited Hnd (fun x Hx => proj1 (Hvis x Hx))). lia.
      - assert (Hv : (v < n)%nat) by (destruct (Hrow v d Hd) as [(_ & k & _ & Hj)|(p & k & w & d' & _ & _ & _ & Hj & _)]; apply (gr_range _ _ G _ _ _ _ Hj)).
        cbn [follow]. rewrite py_index_nat.
        destruct (Hrow v d Hd) as [(Er & k & Hk & Hj)|(p & k & w & d' & Er & Hp & Hk & Hj & Hdp & Hsum)]; rewrite Er.
        + rewrite Z.eqb_refl. exists [Z.of_nat s], [k]. split; [reflexivity|]. split; [|apply route_one; [exact Hk|apply joined_sym, Hj]].
          cbn [roads_along map]. rewrite !py_index_nat. rewrite (road_matrix_joined k v s d) by (apply joined_sym, Hj). reflexivity.
        + destruct (Z.eqb_spec (Z.of_nat p) (Z.of_nat s)); [lia|]. assert (Hw := gr_pos _ _ G _ _ _ _ Hj).
          destruct (IH (v :: visited) p d' Hdp) as (l & ids & F1 & F2 & F3).
          * constructor; [|exact Hnd]. intros Hin. destruct (Hvis v Hin) as (_ & dx & H1 & H2). rewrite Hd in H1. injection H1 as <-. lia.
          * intros x [<-|Hx]; [split; [exact Hv|]; exists d; split; [exact Hd|lia]|]. destruct (Hvis x Hx) as (H0 & dx & H1 & H2). split; [exact H0|]. exists dx. split; [exact H1|lia].
          * simpl. lia.
          * rewrite F1. cbn [option_map]. exists (Z.of_nat p :: l), (k :: ids). split; [reflexivity|]. split.
            -- change (roads_along n (road_matrix joins) (Z.of_nat v :: Z.of_nat p :: l)) with (road_matrix joins (py_index n (Z.of_nat v)) (py_index n (Z.of_nat p)) :: roads_along n (road_matrix joins) (Z.of_nat p :: l)).
               rewrite F2, !py_index_nat. rewrite (road_matrix_joined k v p w) by (apply joined_sym, Hj). reflexivity.
            -- rewrite <- Hsum, Z.add_comm. eapply route_cons; [exact Hk|apply joined_sym, Hj|exact F3].
    Qed.
  End Follow.

  Lemma get_route_ok dist path u v d : fw n (adj_matrix joins, first_paths joins) = (dist, path) -> dist u v = Some d ->
    exists ids, get_route n joins path u v = Some (map Some ids) /\ route joins any u v ids d.
  Proof.
    intros E Hd. assert (I := fw_inv_all). rewrite E in I. unfold get_route, get_route_fuel.
    destruct (follow_spec any u (dist u) (path u)) with (fuel := S n) (visited := @nil nat) (v := v) (d := d) as (l & ids & F1 & F2 & F3).
    - intros x dx Hx.
      assert (Opt : forall k p w d', joined joins k p x w -> dist u p = Some d' -> dx <= d' + w).
      { intros k p w d' Hj Hp. destruct (fi_route _ _ I u p d' Hp) as [ids R]. assert (R' := route_snoc _ _ _ _ _ _ R k x w Logic.I Hj).
        destruct (fi_best _ _ I u x _ (route_below _ _ _ _ R')) as (d'' & H1 & H2). cbn [fst] in H1. rewrite Hx in H1. injection H1 as <-. exact H2. }
      assert (Opt1 : forall k w, joined joins k u x w -> dx <= w).
      { intros k w Hj. destruct (fi_best _ _ I u x w (below_one _ _ _ _ _ Hj)) as (d'' & H1 & H2). cbn [fst] in H1. rewrite Hx in H1. injection H1 as <-. exact H2. }
      destruct (fi_path _ _ I u x dx Hx) as [(j & w & H1 & H2 & H3)|(p & j & w & d' & H1 & H2 & H3 & H4)]; cbn [fst snd] in *.
      + left. split; [exact H1|]. exists j. split; [exact Logic.I|]. assert (A1 := Opt1 j w H2). replace dx with w by lia. exact H2.
      + destruct (Nat.eq_dec p u) as [->|Hne].
        * exfalso. assert (A1 := Opt1 j w H2). assert (P := inv_positive _ _ I u u d' H3). lia.
        * right. exists p, j, w, d'. assert (A1 := Opt j p w d' H2 H3). repeat split; auto. lia.
    - exact Hd.
    - constructor.
    - intros x [].
    - simpl. lia.
    - rewrite F1. cbn [option_map]. rewrite F2. rewrite <- map_rev. exists (rev ids). split; [reflexivity|]. apply route_rev, F3.
  Qed.
End Good.
