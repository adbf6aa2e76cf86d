(** Lemmas about the event list of one agent in the Momentum timeline. *)
From Coq Require Import ZArith List Bool Lia Sorted.
From Coq Require Import ZifyBool ZifyNat.
From Verif Require Import TimeModel MomentumModel MomentumSpec.
Import ListNotations.
Local Open Scope Z_scope.

(** ** Generic list facts *)

Lemma filter_all {A} (f : A -> bool) l : (forall x, In x l -> f x = true) -> filter f l = l.
Proof.
  induction l as [|x l IH]; simpl; intros H; [reflexivity|].
  rewrite (H x (or_introl eq_refl)), IH; auto.
Qed.
Lemma filter_none {A} (f : A -> bool) l : (forall x, In x l -> f x = false) -> filter f l = [].
Proof.
  induction l as [|x l IH]; simpl; intros H; [reflexivity|].
  rewrite (H x (or_introl eq_refl)), IH; auto.
Qed.

Lemma SS_app {A} (R : A -> A -> Prop) l1 l2 :
  StronglySorted R (l1 ++ l2) <->
  StronglySorted R l1 /\ StronglySorted R l2 /\ (forall x y, In x l1 -> In y l2 -> R x y).
Proof.
  induction l1 as [|a l1 IH]; simpl.
  - split; [intros H; repeat split; [constructor | exact H | tauto] | tauto].
  - split.
    + intros H. inversion H as [|? ? Hs Hf]; subst. apply IH in Hs as (H1 & H2 & H3).
      rewrite Forall_app in Hf. destruct Hf as [Hf1 Hf2].
      repeat split; [constructor; auto | auto |].
      intros x y [->|Hx] Hy; [rewrite Forall_forall in Hf2; auto | auto].
    + intros (H1 & H2 & H3). inversion H1 as [|? ? Hs Hf]; subst.
      constructor; [apply IH; repeat split; auto; intros; apply H3; auto|].
      rewrite Forall_app; split; [exact Hf|]. rewrite Forall_forall; auto.
Qed.

Lemma SS_cons {A} (R : A -> A -> Prop) a l :
  StronglySorted R (a :: l) <-> StronglySorted R l /\ (forall y, In y l -> R a y).
Proof.
  split.
  - intros H; inversion H as [|? ? Hs Hf]; subst. rewrite Forall_forall in Hf. auto.
  - intros [H1 H2]. constructor; [auto | rewrite Forall_forall; auto].
Qed.

Lemma SS_map {A B} (R : A -> A -> Prop) (S : B -> B -> Prop) (f : A -> B) l :
  (forall x y, R x y -> S (f x) (f y)) -> StronglySorted R l -> StronglySorted S (map f l).
Proof.
  intros Hf. induction 1 as [|a l Hs IH Hl]; simpl; constructor; auto.
  rewrite Forall_forall in *. intros y Hy. apply in_map_iff in Hy as (x & <- & Hx). auto.
Qed.

Lemma firstn_app_exact {A} (l1 l2 : list A) : firstn (length l1) (l1 ++ l2) = l1.
Proof. rewrite firstn_app, Nat.sub_diag, firstn_O, app_nil_r. apply firstn_all. Qed.
Lemma skipn_app_exact {A} (l1 l2 : list A) : skipn (length l1) (l1 ++ l2) = l2.
Proof. rewrite skipn_app, Nat.sub_diag, skipn_all. reflexivity. Qed.

Lemma last_cons_any {A} (x : A) l d d' : last (x :: l) d = last (x :: l) d'.
Proof. revert x; induction l as [|y l IH]; intros x; [reflexivity|]. exact (IH y). Qed.
Lemma last_app_cons {A} (l1 : list A) x l2 d : last (l1 ++ x :: l2) d = last (x :: l2) d.
Proof.
  induction l1 as [|y l1 IH]; [reflexivity|].
  simpl app. destruct (l1 ++ x :: l2) eqn:E.
  - destruct l1; discriminate.
  - rewrite <- IH. reflexivity.
Qed.
Lemma last_app_ne {A} (l1 l2 : list A) d : l2 <> [] -> last (l1 ++ l2) d = last l2 d.
Proof. destruct l2; [congruence|]. intros _. apply last_app_cons. Qed.
Lemma last_In {A} (l : list A) d : l <> [] -> In (last l d) l.
Proof.
  induction l as [|x l IH]; [congruence|]. intros _. destruct l as [|y l]; [left; reflexivity|].
  right. apply IH. congruence.
Qed.
Lemma last_map {A B} (f : A -> B) l d : l <> [] -> last (map f l) (f d) = f (last l d).
Proof.
  induction l as [|x l IH]; [congruence|]. intros _. destruct l as [|y l]; [reflexivity|].
  apply IH; congruence.
Qed.
Lemma py_nth_last {A} (l1 : list A) l2 d :
  l1 <> [] -> py_nth (l1 ++ l2) (Z.of_nat (length l1) - 1) = Some (last l1 d).
Proof.
  intros H. destruct (@exists_last _ l1 H) as (l & x & ->).
  rewrite last_app_cons, app_length. simpl. unfold py_nth.
  destruct (Z.ltb_spec (Z.of_nat (length l + 1) - 1) 0); [lia|].
  replace (Z.to_nat (Z.of_nat (length l + 1) - 1)) with (length l) by lia.
  rewrite <- app_assoc. rewrite nth_error_app2 by lia. rewrite Nat.sub_diag. reflexivity.
Qed.
Lemma py_nth_m1 {A} (l : list A) d : l <> [] -> py_nth l (-1) = Some (last l d).
Proof.
  intros H. rewrite <- (app_nil_r l) at 1. rewrite <- (py_nth_last l [] d H).
  unfold py_nth. rewrite app_length. simpl length.
  assert (length l <> 0)%nat by (destruct l; simpl; congruence).
  destruct (Z.ltb_spec (-1) 0); [|lia].
  destruct (Z.ltb_spec (Z.of_nat (length l + 0) + -1) 0); [lia|].
  destruct (Z.ltb_spec (Z.of_nat (length l) - 1) 0); [lia|].
  f_equal; lia.
Qed.

(** ** The invariant of one agent's event list *)

(** Time order, with non-increasing counts inside a group of equal times. *)
Definition Rev (a b : event) : Prop :=
  ev_time a < ev_time b \/ (ev_time a = ev_time b /\ ev_cnt b <= ev_cnt a).

Lemma Rev_le a b : Rev a b -> ev_time a <= ev_time b.
Proof. unfold Rev; lia. Qed.

Definition non_initial (n : Z) (e : event) : Prop :=
  ev_type e <> INITIAL /\ 0 <= ev_time e <= TIME_INF /\ 0 <= ev_seq e < n.

(** Count of the last event not later than [t]. *)
Definition level (state : list event) (t : Z) : Z :=
  ev_cnt (last (filter (fun e => ev_time e <=? t) state) (Ev 0 INITIAL 0 0)).

Definition last_time (state : list event) : Z := ev_time (last state (Ev 0 INITIAL 0 0)).

Record agent_inv (cap n : Z) (bs : list booking) (state : list event) : Prop := {
  ai_shape : exists rest, state = Ev (-1) INITIAL 0 cap :: rest /\ Forall (non_initial n) rest;
  ai_sorted : StronglySorted Rev state;
  ai_level : forall t, 0 <= t -> level state t = cap - load bs t;
  ai_last : forall b, In b bs -> b_end b <= last_time state;
  ai_starts : forall b, In b bs -> 0 <= b_start b;
  ai_nonneg : forall e, In e state -> 0 <= ev_cnt e;
  ai_n : 0 <= n <= TIME_INF
}.

Lemma key_le_time e p n : (non_initial n e \/ ev_type e = INITIAL /\ ev_time e = 0) -> n <= TIME_INF -> 0 <= p ->
  key_le (event_key e) (time_key p) = (ev_time e <=? p).
Proof.
  intros H Hn Hp. unfold key_le, time_key, key_lt, event_key.
  destruct H as [(Ht & Htm & Hs)|(Ht & Htm)].
  - destruct (ev_type e) eqn:E; try congruence; simpl priority; lia.
  - rewrite Ht, Htm. simpl. lia.
Qed.

Lemma key_lt_probe e p n : (non_initial n e \/ ev_type e = INITIAL /\ ev_time e = 0) -> 0 < p ->
  key_lt (event_key e) (left_probe p) = (ev_time e <? p).
Proof.
  intros H Hp. unfold left_probe, key_lt, event_key.
  destruct H as [(Ht & Htm & Hs)|(Ht & Htm)].
  - destruct (ev_type e) eqn:E; try congruence; simpl priority; lia.
  - rewrite Ht, Htm. simpl. lia.
Qed.

Definition good_ev (n : Z) (e : event) : Prop :=
  non_initial n e \/ (ev_type e = INITIAL /\ ev_time e = 0).

Lemma inv_good cap n bs state : agent_inv cap n bs state -> Forall (good_ev n) state.
Proof.
  intros [(rest & -> & Hr) _ _ _ _ _ _]. constructor; [right; auto|].
  eapply Forall_impl; [|exact Hr]. intros; left; auto.
Qed.

(** Splitting a time-sorted list at a time. *)
Lemma split_at (f : event -> bool) state :
  StronglySorted Rev state ->
  (forall a b, Rev a b -> f b = true -> f a = true) ->
  state = filter f state ++ filter (fun e => negb (f e)) state.
Proof.
  intros Hs Hf. induction Hs as [|a l Hs IH Hl]; [reflexivity|].
  simpl. destruct (f a) eqn:E; simpl; [f_equal; exact IH|].
  rewrite filter_none; simpl; [f_equal; symmetry; apply filter_all|].
  - intros x Hx. rewrite Forall_forall in Hl. specialize (Hl x Hx).
    destruct (f x) eqn:Ex; [|reflexivity]. rewrite (Hf a x Hl Ex) in E; discriminate.
  - intros x Hx. rewrite Forall_forall in Hl. specialize (Hl x Hx).
    destruct (f x) eqn:Ex; [|reflexivity]. rewrite (Hf a x Hl Ex) in E; discriminate.
Qed.

Lemma bisect_right_spec n p state : Forall (good_ev n) state -> n <= TIME_INF -> 0 <= p ->
  StronglySorted Rev state ->
  bisect_right (time_key p) state = length (filter (fun e => ev_time e <=? p) state).
Proof.
  intros Hg Hn Hp Hs. induction Hs as [|a l Hs IH Hl]; [reflexivity|].
  inversion Hg as [|? ? Ha Hgl]; subst. cbn [bisect_right filter].
  rewrite (key_le_time a p n Ha Hn Hp).
  destruct (ev_time a <=? p) eqn:E; [cbn [length]; rewrite IH; auto|].
  rewrite filter_none; [reflexivity|].
  intros x Hx. rewrite Forall_forall in Hl. apply Hl, Rev_le in Hx. lia.
Qed.

Lemma bisect_left_spec n p state : Forall (good_ev n) state -> 0 < p ->
  StronglySorted Rev state ->
  bisect_left (left_probe p) state = length (filter (fun e => ev_time e <? p) state).
Proof.
  intros Hg Hp Hs. induction Hs as [|a l Hs IH Hl]; [reflexivity|].
  inversion Hg as [|? ? Ha Hgl]; subst. cbn [bisect_left filter].
  rewrite (key_lt_probe a p n Ha Hp).
  destruct (ev_time a <? p) eqn:E; [cbn [length]; rewrite IH; auto|].
  rewrite filter_none; [reflexivity|].
  intros x Hx. rewrite Forall_forall in Hl. apply Hl, Rev_le in Hx. lia.
Qed.

(** The three parts of the list around the interval [start, end_). *)
Definition partA (s : Z) (l : list event) := filter (fun e => ev_time e <=? s) l.
Definition partB (s e : Z) (l : list event) :=
  filter (fun x => (s <? ev_time x) && (ev_time x <? e)) l.
Definition partC1 (e : Z) (l : list event) := filter (fun x => ev_time x =? e) l.
Definition partC2 (e : Z) (l : list event) := filter (fun x => e <? ev_time x) l.

Lemma filter_filter {A} (f g : A -> bool) l :
  filter f (filter g l) = filter (fun x => f x && g x) l.
Proof.
  induction l as [|x l IH]; [reflexivity|]. simpl.
  destruct (g x) eqn:G; simpl; destruct (f x); simpl; rewrite ?IH; reflexivity.
Qed.

Lemma parts s e state : StronglySorted Rev state -> s < e ->
  state = partA s state ++ partB s e state ++ partC1 e state ++ partC2 e state.
Proof.
  intros Hs Hlt.
  assert (H1 := split_at (fun x => ev_time x <=? s) state Hs).
  assert (H1' : state = partA s state ++ filter (fun x => negb (ev_time x <=? s)) state).
  { apply H1. intros a b Hab. apply Rev_le in Hab. lia. }
  set (r := filter (fun x => negb (ev_time x <=? s)) state) in *.
  assert (Hsr : StronglySorted Rev r).
  { rewrite H1' in Hs. apply SS_app in Hs. tauto. }
  assert (H2 : r = filter (fun x => ev_time x <? e) r ++ filter (fun x => negb (ev_time x <? e)) r).
  { apply split_at; [exact Hsr|]. intros a b Hab. apply Rev_le in Hab. lia. }
  set (r2 := filter (fun x => negb (ev_time x <? e)) r) in *.
  assert (Hsr2 : StronglySorted Rev r2).
  { rewrite H2 in Hsr. apply SS_app in Hsr. tauto. }
  assert (H3 : r2 = filter (fun x => ev_time x <=? e) r2 ++ filter (fun x => negb (ev_time x <=? e)) r2).
  { apply split_at; [exact Hsr2|]. intros a b Hab. apply Rev_le in Hab. lia. }
  rewrite H1' at 1. f_equal. rewrite H2. f_equal.
  - unfold r, partB. rewrite filter_filter. apply filter_ext. intros x. lia.
  - rewrite H3. unfold r2, r. rewrite !filter_filter. f_equal; apply filter_ext; intros x; lia.
Qed.

(** Inserting an event after the last one that is not later. *)
Lemma sl_add_spec n e state : Forall (good_ev n) state -> StronglySorted Rev state ->
  ev_type e <> INITIAL -> 0 <= ev_time e -> 0 <= ev_seq e ->
  (forall x, In x state -> ev_type x <> INITIAL -> ev_time x = ev_time e ->
     ev_seq x < ev_seq e \/ (ev_seq x = ev_seq e /\ priority (ev_type x) <= priority (ev_type e))) ->
  sl_add e state
  = filter (fun x => ev_time x <=? ev_time e) state ++ e ::
    filter (fun x => negb (ev_time x <=? ev_time e)) state.
Proof.
  intros Hg Hs Ht Htm Hsq Hseq.
  assert (Hb : bisect_right (event_key e) state
               = length (filter (fun x => ev_time x <=? ev_time e) state)).
  { clear - Hg Hs Ht Htm Hsq Hseq. induction Hs as [|a l Hs IH Hl]; [reflexivity|].
    inversion Hg as [|? ? Ha Hgl]; subst. cbn [bisect_right filter].
    assert (Hk : key_le (event_key a) (event_key e) = (ev_time a <=? ev_time e)).
    { unfold key_le, key_lt, event_key. destruct Ha as [(Hta & Htma & Hsa)|(Hta & Htma)].
      - specialize (Hseq a (or_introl eq_refl) Hta).
        destruct (ev_type a) eqn:Ea; [congruence| |];
          destruct (ev_type e) eqn:Ee; try congruence; simpl priority in *; lia.
      - rewrite Hta, Htma. destruct (ev_type e) eqn:Ee; try congruence; simpl priority; lia. }
    rewrite Hk. destruct (ev_time a <=? ev_time e) eqn:E.
    - cbn [length]. rewrite IH; auto. intros x Hx. apply Hseq. right; exact Hx.
    - rewrite filter_none; [reflexivity|].
      intros x Hx. rewrite Forall_forall in Hl. apply Hl, Rev_le in Hx. lia. }
  unfold sl_add. rewrite Hb.
  assert (Hsplit : state = filter (fun x => ev_time x <=? ev_time e) state ++
                           filter (fun x => negb (ev_time x <=? ev_time e)) state).
  { apply split_at; [exact Hs|]. intros a b Hab. apply Rev_le in Hab. lia. }
  set (f1 := filter (fun x => ev_time x <=? ev_time e) state) in *.
  set (f2 := filter (fun x => negb (ev_time x <=? ev_time e)) state) in *.
  rewrite Hsplit. rewrite firstn_app_exact, skipn_app_exact. reflexivity.
Qed.

(** ** Booking on one agent *)

Definition dec (w : Z) (e : event) : event := Ev (ev_seq e) (ev_type e) (ev_time e) (ev_cnt e - w).

Definition d0 : event := Ev 0 INITIAL 0 0.

Lemma in_partA s l x : In x (partA s l) <-> In x l /\ ev_time x <= s.
Proof. unfold partA. rewrite filter_In. intuition lia. Qed.
Lemma in_partB s e l x : In x (partB s e l) <-> In x l /\ s < ev_time x < e.
Proof. unfold partB. rewrite filter_In. intuition lia. Qed.
Lemma in_partC1 e l x : In x (partC1 e l) <-> In x l /\ ev_time x = e.
Proof. unfold partC1. rewrite filter_In. intuition lia. Qed.
Lemma in_partC2 e l x : In x (partC2 e l) <-> In x l /\ e < ev_time x.
Proof. unfold partC2. rewrite filter_In. intuition lia. Qed.

Lemma partA_ne cap n bs state s : agent_inv cap n bs state -> 0 <= s -> partA s state <> [].
Proof.
  intros [(rest & -> & _) _ _ _ _ _ _] Hs E.
  assert (H : In (Ev (-1) INITIAL 0 cap) (partA s (Ev (-1) INITIAL 0 cap :: rest))).
  { apply in_partA. simpl; split; [auto|lia]. }
  rewrite E in H. destruct H.
Qed.

Definition booked_state (n s e w : Z) (state : list event) : list event :=
  let A := partA s state in let B := partB s e state in
  let C1 := partC1 e state in let C2 := partC2 e state in
  let st := Ev n START s (ev_cnt (last A d0) - w) in
  let pre := A ++ st :: map (dec w) B in
  let cnt := match C1 with
             | [] => ev_cnt (last pre d0) + w
             | _ => ev_cnt (last C1 d0)
             end in
  pre ++ C1 ++ Ev n END e cnt :: C2.

Definition bookable (s e w : Z) (state : list event) : bool :=
  forallb (fun x => w <=? ev_cnt x) (partB s e state) && (w <=? ev_cnt (last (partA s state) d0)).

Lemma index_parts cap n bs state s e : agent_inv cap n bs state -> 0 <= s < e ->
  bisect_right (time_key s) state = length (partA s state) /\
  bisect_left (left_probe e) state = length (partA s state ++ partB s e state).
Proof.
  intros Hi Hse. assert (Hg := inv_good _ _ _ _ Hi). destruct Hi as [_ Hs _ _ _ _ Hn].
  split.
  - rewrite (bisect_right_spec n) by (auto; lia). reflexivity.
  - rewrite (bisect_left_spec n) by (auto; lia).
    f_equal. rewrite (parts s e state Hs) at 1 by lia.
    rewrite !filter_app. rewrite (filter_all _ (partA s state)), (filter_all _ (partB s e state)).
    + rewrite (filter_none _ (partC1 e state)), (filter_none _ (partC2 e state)).
      * now rewrite app_nil_r.
      * intros x Hx. apply in_partC2 in Hx. lia.
      * intros x Hx. apply in_partC1 in Hx. lia.
    + intros x Hx. apply in_partB in Hx. lia.
    + intros x Hx. apply in_partA in Hx. lia.
Qed.

Lemma firstn_mid {A} (l1 l2 l3 : list A) :
  firstn (length (l1 ++ l2) - length l1) (skipn (length l1) (l1 ++ l2 ++ l3)) = l2.
Proof.
  rewrite skipn_app_exact, app_length.
  replace (length l1 + length l2 - length l1)%nat with (length l2) by lia.
  apply firstn_app_exact.
Qed.

Lemma validate_state_eq cap n bs state s e w : agent_inv cap n bs state -> 0 <= s < e ->
  validate_state s e w state = bookable s e w state.
Proof.
  intros Hi Hse. unfold validate_state, bookable.
  destruct (index_parts _ _ _ _ s e Hi Hse) as [-> ->].
  assert (Hp := parts s e state (ai_sorted _ _ _ _ Hi) ltac:(lia)).
  assert (HneA := partA_ne _ _ _ _ s Hi ltac:(lia)).
  set (A := partA s state) in *. set (B := partB s e state) in *.
  assert (Hpy : py_nth state (Z.of_nat (length A) - 1) = Some (last A d0)).
  { rewrite Hp at 1. apply py_nth_last; exact HneA. }
  rewrite Hpy.
  assert (Hmid : firstn (length (A ++ B) - length A) (skipn (length A) state) = B).
  { rewrite Hp at 1. apply firstn_mid. }
  rewrite Hmid. reflexivity.
Qed.

Lemma update_state_eq cap n bs state s e w : agent_inv cap n bs state -> 0 <= s < e ->
  e <= TIME_INF -> 0 <= w ->
  update_state n s e w state
  = if bookable s e w state then Some (booked_state n s e w state) else None.
Proof.
  intros Hi Hse Hinf Hw. unfold update_state.
  destruct (index_parts _ _ _ _ s e Hi Hse) as [-> ->].
  assert (Hsort := ai_sorted _ _ _ _ Hi).
  assert (Hp := parts s e state Hsort ltac:(lia)).
  assert (HneA := partA_ne _ _ _ _ s Hi ltac:(lia)).
  assert (Hgood := inv_good _ _ _ _ Hi). rewrite Forall_forall in Hgood.
  assert (Hn := ai_n _ _ _ _ Hi).
  set (A := partA s state) in *. set (B := partB s e state) in *.
  set (C1 := partC1 e state) in *. set (C2 := partC2 e state) in *.
  assert (Hpy : py_nth state (Z.of_nat (length A) - 1) = Some (last A d0)).
  { rewrite Hp. apply py_nth_last; exact HneA. }
  rewrite Hpy.
  assert (Hmid : firstn (length (A ++ B) - length A) (skipn (length A) state) = B).
  { rewrite Hp at 1. apply firstn_mid. }
  rewrite Hmid.
  assert (Hbef : firstn (length A) state = A). { rewrite Hp at 1. apply firstn_app_exact. }
  rewrite Hbef.
  assert (Haft : skipn (length A + (length (A ++ B) - length A)) state = C1 ++ C2).
  { rewrite app_length. replace (length A + (length A + length B - length A))%nat
      with (length (A ++ B)) by (rewrite app_length; lia).
    rewrite Hp, app_assoc at 1. apply skipn_app_exact. }
  rewrite Haft.
  unfold bookable. fold A B.
  destruct (forallb (fun x => w <=? ev_cnt x) B && (w <=? ev_cnt (last A d0))) eqn:Hb; [|reflexivity].
  assert (HtA : forall x, In x A -> ev_time x <= s) by (intros x Hx; apply in_partA in Hx; tauto).
  assert (HtB : forall x, In x (map (dec w) B) -> s < ev_time x < e).
  { intros x Hx. apply in_map_iff in Hx as (y & <- & Hy). apply in_partB in Hy. simpl; lia. }
  assert (HtC1 : forall x, In x C1 -> ev_time x = e) by (intros x Hx; apply in_partC1 in Hx; tauto).
  assert (HtC2 : forall x, In x C2 -> e < ev_time x) by (intros x Hx; apply in_partC2 in Hx; tauto).
  assert (HSparts : StronglySorted Rev (A ++ B ++ C1 ++ C2)) by (rewrite <- Hp; exact Hsort).
  apply SS_app in HSparts as (HSA & HSBC & HRA). apply SS_app in HSBC as (HSB & HSC & HRB).
  assert (HSdecB : StronglySorted Rev (map (dec w) B)).
  { eapply SS_map; [|exact HSB]. unfold Rev; intros x y; simpl; lia. }
  set (st1 := A ++ map (fun e0 => Ev (ev_seq e0) (ev_type e0) (ev_time e0) (ev_cnt e0 - w)) B ++ C1 ++ C2).
  change (map (fun e0 => Ev (ev_seq e0) (ev_type e0) (ev_time e0) (ev_cnt e0 - w)) B) with (map (dec w) B) in st1.
  assert (HS1 : StronglySorted Rev st1).
  { unfold st1. apply SS_app; repeat split; [exact HSA| |].
    - apply SS_app; repeat split; [exact HSdecB|exact HSC|].
      intros x y Hx Hy. apply HtB in Hx. rewrite in_app_iff in Hy. left.
      destruct Hy as [Hy|Hy]; [apply HtC1 in Hy|apply HtC2 in Hy]; lia.
    - intros x y Hx Hy. apply HtA in Hx. rewrite !in_app_iff in Hy. left.
      destruct Hy as [Hy|[Hy|Hy]]; [apply HtB in Hy|apply HtC1 in Hy|apply HtC2 in Hy]; lia. }
  assert (Hg1 : Forall (good_ev n) st1).
  { rewrite Forall_forall. intros x Hx. unfold st1 in Hx. rewrite !in_app_iff in Hx.
    destruct Hx as [Hx|[Hx|[Hx|Hx]]].
    - apply in_partA in Hx. apply Hgood; tauto.
    - apply in_map_iff in Hx as (y & <- & Hy). apply in_partB in Hy as [Hy ?].
      specialize (Hgood y Hy). unfold good_ev, non_initial in *; simpl; intuition.
    - apply in_partC1 in Hx. apply Hgood; tauto.
    - apply in_partC2 in Hx. apply Hgood; tauto. }
  rewrite (sl_add_spec n _ st1 Hg1 HS1); simpl ev_time; simpl ev_type; simpl ev_seq;
    [|discriminate|lia|lia|].
  2:{ intros x Hx Hx2 _. rewrite Forall_forall in Hg1. specialize (Hg1 x Hx).
      destruct Hg1 as [Hg1|Hg1]; [|tauto]. unfold non_initial in Hg1. left; lia. }
  assert (HF1 : filter (fun x => ev_time x <=? s) st1 = A).
  { unfold st1. rewrite !filter_app.
    rewrite (filter_all _ A), (filter_none _ (map _ _)), (filter_none _ C1), (filter_none _ C2), !app_nil_r; auto.
    - intros x Hx. apply HtC2 in Hx. lia.
    - intros x Hx. apply HtC1 in Hx. lia.
    - intros x Hx. apply HtB in Hx. lia.
    - intros x Hx. apply HtA in Hx. lia. }
  assert (HF2 : filter (fun x => negb (ev_time x <=? s)) st1 = map (dec w) B ++ C1 ++ C2).
  { unfold st1. rewrite !filter_app.
    rewrite (filter_none _ A), (filter_all _ (map _ _)), (filter_all _ C1), (filter_all _ C2); auto.
    - intros x Hx. apply HtC2 in Hx. lia.
    - intros x Hx. apply HtC1 in Hx. lia.
    - intros x Hx. apply HtB in Hx. lia.
    - intros x Hx. apply HtA in Hx. lia. }
  rewrite HF1, HF2. clear HF1 HF2.
  set (stev := Ev n START s (ev_cnt (last A d0) - w)).
  set (st2 := A ++ stev :: map (dec w) B ++ C1 ++ C2).
  assert (HlastA : forall x, In x A -> ev_time x = s -> ev_cnt (last A d0) <= ev_cnt x).
  { intros x Hx Hxt. destruct (@exists_last _ A HneA) as (A' & a & HA').
    rewrite HA' in *. rewrite last_app_cons. simpl last.
    rewrite in_app_iff in Hx. apply SS_app in HSA as (_ & _ & HR).
    destruct Hx as [Hx|[<-|[]]]; [|lia].
    specialize (HR x a Hx (or_introl eq_refl)).
    assert (ev_time a <= s) by (apply HtA, in_app_iff; right; left; reflexivity).
    unfold Rev in HR. lia. }
  assert (HS2 : StronglySorted Rev st2).
  { unfold st2. unfold st1 in HS1. apply SS_app in HS1 as (_ & HSr & HRr).
    apply SS_app; repeat split; [exact HSA| |].
    - apply SS_cons; split; [exact HSr|].
      intros y Hy. rewrite !in_app_iff in Hy. left. simpl.
      destruct Hy as [Hy|[Hy|Hy]]; [apply HtB in Hy|apply HtC1 in Hy|apply HtC2 in Hy]; lia.
    - intros x y Hx [<-|Hy]; [|auto].
      assert (Hxt := HtA x Hx). destruct (Z.eq_dec (ev_time x) s) as [E|E].
      + right. simpl. split; [lia|]. specialize (HlastA x Hx E). lia.
      + left. simpl. lia. }
  assert (Hg2 : Forall (good_ev (n+1)) st2).
  { assert (Hg1' : Forall (good_ev (n+1)) st1).
    { eapply Forall_impl; [|exact Hg1]. unfold good_ev, non_initial. intuition lia. }
    unfold st2. unfold st1 in Hg1'. rewrite Forall_app in *. destruct Hg1' as [? ?].
    split; [assumption|]. constructor; [|assumption].
    left. unfold non_initial, stev; simpl. repeat split; try lia. discriminate. }
  assert (Hpre : filter (fun x => ev_time x <=? e) st2 = (A ++ stev :: map (dec w) B) ++ C1).
  { unfold st2. change (stev :: map (dec w) B ++ C1 ++ C2) with ((stev :: map (dec w) B) ++ C1 ++ C2).
    rewrite !filter_app.
    rewrite (filter_all _ A), (filter_all _ (stev :: _)), (filter_all _ C1), (filter_none _ C2), app_nil_r, app_assoc; auto.
    - intros x Hx. apply HtC2 in Hx. lia.
    - intros x Hx. apply HtC1 in Hx. lia.
    - intros x [<-|Hx]; [simpl; lia|]. apply HtB in Hx. lia.
    - intros x Hx. apply HtA in Hx. lia. }
  assert (Hpost : filter (fun x => negb (ev_time x <=? e)) st2 = C2).
  { unfold st2. change (stev :: map (dec w) B ++ C1 ++ C2) with ((stev :: map (dec w) B) ++ C1 ++ C2).
    rewrite !filter_app.
    rewrite (filter_none _ A), (filter_none _ (stev :: _)), (filter_none _ C1), (filter_all _ C2); auto.
    - intros x Hx. apply HtC2 in Hx. lia.
    - intros x Hx. apply HtC1 in Hx. lia.
    - intros x [<-|Hx]; [simpl; lia|]. apply HtB in Hx. lia.
    - intros x Hx. apply HtA in Hx. lia. }
  assert (Hst2eq : st2 = ((A ++ stev :: map (dec w) B) ++ C1) ++ C2).
  { unfold st2. rewrite <- !app_assoc. simpl. rewrite <- ?app_assoc. reflexivity. }
  destruct (Z.eq_dec n TIME_INF) as [Hmax|Hmax].
  - (* seq_id TIME_INF: key (start, TIME_INF, 0) is still below the probe *)
    assert (Hbis : bisect_right (time_key e) st2 = length (filter (fun x => ev_time x <=? e) st2)).
    { clear - Hg2 HS2 Hse Hn Hinf. induction HS2 as [|a l Hs IH Hl]; [reflexivity|].
      inversion Hg2 as [|? ? Ha Hgl]; subst. cbn [bisect_right filter].
      assert (Hk : key_le (event_key a) (time_key e) = (ev_time a <=? e)).
      { unfold key_le, time_key, key_lt, event_key. unfold good_ev, non_initial in Ha.
        destruct Ha as [(Ht & Htm & Hs')|(Ht & Htm)].
        - destruct (ev_type a) eqn:E; try congruence; simpl priority; lia.
        - rewrite Ht, Htm. simpl. lia. }
      rewrite Hk. destruct (ev_time a <=? e) eqn:E; [cbn [length]; rewrite IH; auto|].
      rewrite filter_none; [reflexivity|].
      intros x Hx. rewrite Forall_forall in Hl. apply Hl, Rev_le in Hx. lia. }
    rewrite Hbis, Hpre. rewrite Hst2eq at 1.
    rewrite (py_nth_last _ _ d0) by (destruct A; simpl; discriminate).
    f_equal. rewrite (sl_add_spec (n+1) _ st2 Hg2 HS2); simpl ev_time; simpl ev_type; simpl ev_seq;
      [|discriminate|lia|lia|].
    2:{ intros x Hx Hx2 Hxe. unfold st2 in Hx. rewrite in_app_iff in Hx.
        destruct Hx as [Hx|[<-|Hx]]; [apply HtA in Hx; lia|simpl in Hxe; lia|].
        rewrite !in_app_iff in Hx. destruct Hx as [Hx|[Hx|Hx]].
        - apply HtB in Hx; lia.
        - apply in_partC1 in Hx as [Hx ?]. specialize (Hgood x Hx).
          unfold good_ev, non_initial in Hgood. left; intuition lia.
        - apply HtC2 in Hx; lia. }
    rewrite Hpre, Hpost. unfold booked_state. fold A B C1 C2 stev.
    rewrite <- (app_assoc (A ++ stev :: map (dec w) B) C1). f_equal. f_equal. f_equal. f_equal.
    destruct C1 as [|c C1'] eqn:EC.
    + rewrite app_nil_r.
      assert (Hlt : ev_time (last (A ++ stev :: map (dec w) B) d0) < e).
      { assert (Hin : In (last (A ++ stev :: map (dec w) B) d0) (A ++ stev :: map (dec w) B))
          by (apply last_In; destruct A; discriminate).
        rewrite in_app_iff in Hin. destruct Hin as [Hin|[Hin|Hin]];
          [apply HtA in Hin; lia | rewrite <- Hin; simpl; lia | apply HtB in Hin; lia]. }
      destruct (Z.eqb_spec (ev_time (last (A ++ stev :: map (dec w) B) d0)) e); [lia|reflexivity].
    + rewrite last_app_cons.
      assert (Heq : ev_time (last (c :: C1') d0) = e) by (apply HtC1, last_In; discriminate).
      rewrite Heq, Z.eqb_refl. reflexivity.
  - assert (Hbis : bisect_right (time_key e) st2 = length (filter (fun x => ev_time x <=? e) st2))
      by (apply (bisect_right_spec (n+1)); auto; lia).
    rewrite Hbis, Hpre. rewrite Hst2eq at 1.
    rewrite (py_nth_last _ _ d0) by (destruct A; simpl; discriminate).
    f_equal. rewrite (sl_add_spec (n+1) _ st2 Hg2 HS2); simpl ev_time; simpl ev_type; simpl ev_seq;
      [|discriminate|lia|lia|].
    2:{ intros x Hx Hx2 Hxe. unfold st2 in Hx. rewrite in_app_iff in Hx.
        destruct Hx as [Hx|[<-|Hx]]; [apply HtA in Hx; lia|simpl in Hxe; lia|].
        rewrite !in_app_iff in Hx. destruct Hx as [Hx|[Hx|Hx]].
        - apply HtB in Hx; lia.
        - apply in_partC1 in Hx as [Hx ?]. specialize (Hgood x Hx).
          unfold good_ev, non_initial in Hgood. left; intuition lia.
        - apply HtC2 in Hx; lia. }
    rewrite Hpre, Hpost. unfold booked_state. fold A B C1 C2 stev.
    rewrite <- (app_assoc (A ++ stev :: map (dec w) B) C1). f_equal. f_equal. f_equal. f_equal.
    destruct C1 as [|c C1'] eqn:EC.
    + rewrite app_nil_r.
      assert (Hlt : ev_time (last (A ++ stev :: map (dec w) B) d0) < e).
      { assert (Hin : In (last (A ++ stev :: map (dec w) B) d0) (A ++ stev :: map (dec w) B))
          by (apply last_In; destruct A; discriminate).
        rewrite in_app_iff in Hin. destruct Hin as [Hin|[Hin|Hin]];
          [apply HtA in Hin; lia | rewrite <- Hin; simpl; lia | apply HtB in Hin; lia]. }
      destruct (Z.eqb_spec (ev_time (last (A ++ stev :: map (dec w) B) d0)) e); [lia|reflexivity].
    + rewrite last_app_cons.
      assert (Heq : ev_time (last (c :: C1') d0) = e) by (apply HtC1, last_In; discriminate).
      rewrite Heq, Z.eqb_refl. reflexivity.
Qed.
