(** C31: the linked list (sampo/utilities/linked_list.py). *)
From Coq Require Import ZArith List Bool Arith Lia.
From Verif Require Import LinkedListModel.
Import ListNotations.

(** ** Specification *)
(** The values met when following the links from a node. *)
Inductive holds {V} (h : list (V * option nat)) : option nat -> list V -> Prop :=
  | holds_end : holds h None []
  | holds_node a v n l : nth_error h a = Some (v, n) -> holds h n l -> holds h (Some a) (v :: l).
(** A linked list with these elements and the right length. *)
Definition contains {V} (l : llist V) (vs : list V) : Prop :=
  holds (ll_heap l) (ll_root l) vs /\ ll_len l = Z.of_nat (length vs).
(** Filtering with a condition that has a state. *)
Fixpoint kept {V S0} (cond : S0 -> V -> bool * S0) (s : S0) (vs : list V) : list V :=
  match vs with
  | [] => []
  | v :: r => let (b, s') := cond s v in if b then kept cond s' r else v :: kept cond s' r
  end.
Fixpoint last_state {V S0} (cond : S0 -> V -> bool * S0) (s : S0) (vs : list V) : S0 :=
  match vs with
  | [] => s
  | v :: r => last_state cond (snd (cond s v)) r
  end.
(** A cursor in a list: the elements before it and after it. *)
Inductive op := Next | Remove.
Definition cursor_op {V} (o : op) (z : list V * list V) : option (list V * list V) :=
  match o, z with
  | _, (_, []) => None
  | Next, (b, x :: a) => Some (b ++ [x], a)
  | Remove, (b, _ :: a) => Some (b, a)
  end.
Fixpoint cursor_ops {V} (os : list op) (z : list V * list V) : option (list V * list V) :=
  match os with
  | [] => Some z
  | o :: r => match cursor_op o z with Some z' => cursor_ops r z' | None => None end
  end.
(** The same operations on an iterator of the model. *)
Definition iter_op {V} (veq : V -> V -> bool) (o : op) (s : llist V * iter) : option (llist V * iter) :=
  match o with
  | Next => match it_next (fst s) (snd s) with Some it => Some (fst s, it) | None => None end
  | Remove => it_remove veq (fst s) (snd s)
  end.
Fixpoint iter_ops {V} (veq : V -> V -> bool) (os : list op) (s : llist V * iter) : option (llist V * iter) :=
  match os with
  | [] => Some s
  | o :: r => match iter_op veq o s with Some s' => iter_ops veq r s' | None => None end
  end.

(** ** Proofs *)
Section Proofs.
  Context {V : Type} (veq : V -> V -> bool).
  Notation heap := (list (V * option nat)).

  Fixpoint seg (h : heap) (o : option nat) (adr : list nat) (vs : list V) (e : option nat) : Prop :=
    match adr, vs with
    | [], [] => o = e
    | a :: adr', v :: vs' => o = Some a /\ exists n, nth_error h a = Some (v, n) /\ seg h n adr' vs' e
    | _, _ => False
    end.

  Lemma seg_holds h o adr vs : seg h o adr vs None -> holds h o vs.
  Proof.
    revert o vs; induction adr as [|a adr IH]; intros o [|v vs] H; cbn in H; try contradiction.
    - subst; constructor.
    - destruct H as [-> (n & Hn & H)]. econstructor; eauto.
  Qed.
  Lemma holds_seg h o vs : holds h o vs -> exists adr, seg h o adr vs None.
  Proof.
    induction 1 as [|a v n l Hn _ (adr & IH)]. exists []; reflexivity.
    exists (a :: adr); cbn. split; auto. eauto.
  Qed.
  Lemma seg_app h o A1 v1 A2 v2 m e : seg h o A1 v1 m -> seg h m A2 v2 e -> seg h o (A1 ++ A2) (v1 ++ v2) e.
  Proof.
    revert o v1; induction A1 as [|a A1 IH]; intros o [|v v1] H H2; cbn in H; try contradiction; cbn.
    - now subst.
    - destruct H as [-> (n & Hn & H)]. split; auto. exists n; split; auto.
  Qed.
  Lemma seg_snoc h o A vs m a v n : seg h o A vs m -> m = Some a -> nth_error h a = Some (v, n) -> seg h o (A ++ [a]) (vs ++ [v]) n.
  Proof.
    intros H -> Hn. apply (seg_app _ _ _ _ _ _ _ _ H). cbn. split; auto. exists n; auto.
  Qed.
  Lemma seg_split h o A a vs e : seg h o (A ++ [a]) vs e ->
    exists vs1 v, vs = vs1 ++ [v] /\ seg h o A vs1 (Some a) /\ nth_error h a = Some (v, e).
  Proof.
    revert o vs; induction A as [|x A IH]; intros o [|v vs] H; cbn in H; try contradiction.
    - destruct H as [-> (n & Hn & H)]. destruct vs; cbn in H; [subst|contradiction].
      exists [], v; repeat split; auto.
    - destruct H as [-> (n & Hn & H)]. destruct (IH _ _ H) as (vs1 & w & -> & H1 & H2).
      exists (v :: vs1), w; repeat split; auto. exists n; auto.
  Qed.
  Lemma seg_len h o A vs e : seg h o A vs e -> length A = length vs.
  Proof.
    revert o vs; induction A as [|x A IH]; intros o [|v vs] H; cbn in H; try contradiction; auto.
    destruct H as [_ (n & _ & H)]. cbn; f_equal; eauto.
  Qed.
  Lemma seg_det h o A B vs ws : seg h o A vs None -> seg h o B ws None -> A = B /\ vs = ws.
  Proof.
    revert o B vs ws; induction A as [|a A IH]; intros o [|b B] [|v vs] [|w ws] H1 H2; cbn in H1, H2; try contradiction; auto.
    - destruct H2; congruence.
    - destruct H1; congruence.
    - destruct H1 as [-> (n & Hn & H1)], H2 as [E (m & Hm & H2)]. injection E as <-.
      rewrite Hn in Hm; injection Hm as <- <-.
      destruct (IH _ _ _ _ H1 H2); subst; auto.
  Qed.
  Lemma seg_suffix h o A vs a : seg h o A vs None -> In a A -> exists B ws, seg h (Some a) B ws None /\ length B <= length A /\
     (o <> Some a -> length B < length A).
  Proof.
    revert o vs; induction A as [|x A IH]; intros o [|v vs] H Hin; cbn in H; try contradiction.
    destruct H as [-> (n & Hn & H)]. destruct Hin as [->|Hin].
    - exists (a :: A), (v :: vs). repeat split; auto. exists n; auto. congruence.
    - destruct (IH _ _ H Hin) as (B & ws & H1 & H2 & _). exists B, ws; repeat split; auto; cbn; lia.
  Qed.
  Lemma seg_nodup h o A vs : seg h o A vs None -> NoDup A.
  Proof.
    revert o vs; induction A as [|x A IH]; intros o [|v vs] H; cbn in H; try contradiction; constructor.
    - intros Hin. destruct H as [-> (n & Hn & H)].
      destruct (seg_suffix _ _ _ _ _ H Hin) as (B & ws & H1 & H2 & _).
      assert (H3 : seg h (Some x) (x :: A) (v :: vs) None) by (cbn; split; [auto|exists n; auto]).
      destruct (seg_det _ _ _ _ _ _ H1 H3) as [-> _]. cbn in H2; lia.
    - destruct H as [-> (n & Hn & H)]. eauto.
  Qed.
  Lemma seg_bound h o A vs e : seg h o A vs e -> forall a, In a A -> a < length h.
  Proof.
    revert o vs; induction A as [|x A IH]; intros o [|v vs] H a Hin; cbn in H; try contradiction.
    destruct H as [-> (n & Hn & H)]. destruct Hin as [->|Hin]; eauto.
    apply nth_error_Some; congruence.
  Qed.
  Lemma seg_length h o A vs : seg h o A vs None -> length A <= length h.
  Proof.
    intros H. pose proof (seg_nodup _ _ _ _ H) as Hnd.
    rewrite <- (seq_length (length h) 0). apply NoDup_incl_length; auto.
    intros a Ha. apply in_seq. pose proof (seg_bound _ _ _ _ _ H a Ha); lia.
  Qed.

  Lemma same_node_false h f a b A B vs ws :
    seg h (Some a) A vs None -> seg h (Some b) B ws None -> length A < length B -> length A <= f ->
    same_node veq f h a b = Some false.
  Proof.
    revert a b A B vs ws; induction f as [|f IH]; intros a b A B vs ws HA HB Hlt Hf.
    - destruct A; cbn in Hf; [|lia]. destruct vs; cbn in HA; [discriminate|contradiction].
    - cbn. destruct (Nat.eqb_spec a b) as [->|Hne].
      + destruct (seg_det _ _ _ _ _ _ HA HB); subst; lia.
      + destruct A as [|a' A], vs as [|v vs]; cbn in HA; try contradiction; try discriminate.
        destruct B as [|b' B], ws as [|w ws]; cbn in HB; try contradiction; try discriminate.
        destruct HA as [E (n & Hn & HA)], HB as [E' (m & Hm & HB)].
        injection E as Ea. injection E' as Eb. subst a' b'. rewrite Hn, Hm.
        destruct (negb (veq v w)); auto.
        destruct n as [x|], m as [y|]; auto.
        * apply (IH x y A B vs ws); auto; cbn in *; lia.
        * destruct B; cbn in *; [|destruct ws; [contradiction|destruct HB; discriminate]]. lia.
  Qed.

  Lemma set_next_length (h : heap) a n : length (set_next h a n) = length h.
  Proof. revert a; induction h as [|[v m] h IH]; intros [|a]; cbn; auto. Qed.
  Lemma set_next_other (h : heap) a b n : a <> b -> nth_error (set_next h a n) b = nth_error h b.
  Proof.
    revert a b; induction h as [|[v m] h IH]; intros [|a] [|b] Hne; cbn; auto; try congruence.
  Qed.
  Lemma set_next_same (h : heap) a n v m : nth_error h a = Some (v, m) -> nth_error (set_next h a n) a = Some (v, n).
  Proof.
    revert a; induction h as [|[w k] h IH]; intros [|a] H; cbn in *; try discriminate; auto.
    now injection H as -> ->.
  Qed.
  Lemma seg_ext h h' o A vs e : (forall a, In a A -> nth_error h' a = nth_error h a) -> seg h o A vs e -> seg h' o A vs e.
  Proof.
    revert o vs; induction A as [|x A IH]; intros o [|v vs] Hext H; cbn in H; try contradiction; auto.
    destruct H as [-> (n & Hn & H)]. cbn. split; auto. exists n; split; [rewrite Hext; auto; now left|].
    apply IH; auto. intros; apply Hext; now right.
  Qed.
  Lemma nodup_snoc_notin (A B : list nat) p : NoDup ((A ++ [p]) ++ B) -> ~ In p A /\ ~ In p B.
  Proof.
    intros H. rewrite <- app_assoc in H. cbn in H. apply NoDup_remove_2 in H.
    rewrite in_app_iff in H. tauto.
  Qed.

  (** the state of an iterator *)
  Definition at_cursor (l : llist V) (it : iter) (before after : list V) : Prop :=
    exists A B, seg (ll_heap l) (ll_root l) A before (it_node it) /\ seg (ll_heap l) (it_node it) B after None /\
      (A = [] \/ exists A' p, A = A' ++ [p] /\ it_prev it = Some p) /\
      ll_len l = Z.of_nat (length before + length after).

  Lemma cursor_start l vs : contains l vs -> at_cursor l (ll_iterator l) [] vs.
  Proof.
    intros [H Hl]. destruct (holds_seg _ _ _ H) as (B & HB). exists [], B; cbn. repeat split; auto.
  Qed.
  Lemma cursor_contains l it b a : at_cursor l it b a -> contains l (b ++ a).
  Proof.
    intros (A & B & H1 & H2 & _ & Hl). split.
    - apply seg_holds with (adr := A ++ B). eapply seg_app; eauto.
    - rewrite app_length; auto.
  Qed.
  Lemma cursor_end l it b : at_cursor l it b [] -> it_node it = None.
  Proof. intros (A & B & H1 & H2 & _). destruct B; cbn in H2; auto; contradiction. Qed.
  Lemma cursor_value l it b v a : at_cursor l it b (v :: a) -> it_value l it = Some v /\ exists x, it_node it = Some x.
  Proof.
    intros (A & B & H1 & H2 & _). destruct B; cbn in H2; [contradiction|].
    destruct H2 as [E (m & Hm & _)]. unfold it_value. rewrite E, Hm. eauto.
  Qed.
  Lemma cursor_next l it b v a : at_cursor l it b (v :: a) ->
    exists it', it_next l it = Some it' /\ at_cursor l it' (b ++ [v]) a.
  Proof.
    intros (A & B & H1 & H2 & H3 & Hl). destruct B as [|x B]; cbn in H2; [contradiction|].
    destruct H2 as [E (m & Hm & H2)]. unfold it_next. rewrite E. unfold next_of. rewrite Hm.
    eexists; split; [reflexivity|]. exists (A ++ [x]), B. cbn [it_node it_prev]. repeat split; auto.
    - eapply seg_snoc; eauto.
    - right; eauto.
    - rewrite app_length. cbn in *; lia.
  Qed.
  Lemma cursor_remove l it b v a : at_cursor l it b (v :: a) ->
    exists l' it', it_remove veq l it = Some (l', it') /\ at_cursor l' it' b a /\ length (ll_heap l') = length (ll_heap l).
  Proof.
    intros (A & B & H1 & H2 & H3 & Hl).
    pose proof (seg_app _ _ _ _ _ _ _ _ H1 H2) as Hall.
    pose proof (seg_nodup _ _ _ _ Hall) as Hnd. pose proof (seg_length _ _ _ _ Hall) as Hlen.
    pose proof H2 as Hseg.
    destruct B as [|x B]; cbn in H2; [contradiction|].
    destruct H2 as [E (m & Hm & H2)]. unfold it_remove. rewrite E. rewrite E in Hseg, H1.
    destruct H3 as [->|(A' & p & -> & Hp)].
    - destruct b; cbn in H1; [|contradiction]. rewrite H1. cbn [same_node]. rewrite Nat.eqb_refl.
      unfold next_of. rewrite Hm. do 2 eexists; split; [reflexivity|]. split; auto.
      exists [], B. cbn. repeat split; auto. cbn in Hl; lia.
    - destruct (ll_root l) as [r|] eqn:Er.
      2:{ destruct A'; destruct b; cbn in H1; try contradiction; destruct H1; discriminate. }
      rewrite (same_node_false _ _ x r (x :: B) ((A' ++ [p]) ++ x :: B) (v :: a) (b ++ v :: a)).
      + unfold next_of. rewrite Hm, Hp. do 2 eexists; split; [reflexivity|]. split; [|apply set_next_length].
        assert (Hnd' : NoDup ((A' ++ [p]) ++ B)) by (rewrite NoDup_remove_1 in Hnd || apply NoDup_remove_1 in Hnd; exact Hnd).
        destruct (nodup_snoc_notin _ _ _ Hnd') as [N1 N2].
        destruct (seg_split _ _ _ _ _ _ H1) as (b1 & w & -> & S1 & S2).
        exists (A' ++ [p]), B. cbn [ll_heap ll_root it_node it_prev ll_len]. repeat split.
        * eapply seg_snoc; [|reflexivity|].
          -- eapply seg_ext; [|exact S1]. intros y Hy. apply set_next_other. intros ->; tauto.
          -- eapply set_next_same; eauto.
        * eapply seg_ext; [|exact H2]. intros y Hy. apply set_next_other. intros ->; tauto.
        * right; eauto.
        * rewrite app_length in *. cbn in *; lia.
      + exact Hseg.
      + exact Hall.
      + rewrite !app_length; cbn; lia.
      + rewrite !app_length in Hlen. cbn in *; lia.
  Qed.

  Lemma remove_loop_correct {S0} (cond : S0 -> V -> bool * S0) after : forall fuel s l it before,
    at_cursor l it before after -> length after < fuel ->
    exists l', remove_loop veq fuel cond s l it = Some (l', last_state cond s after) /\
               contains l' (before ++ kept cond s after).
  Proof.
    induction after as [|v after IH]; intros [|f] s l it before H Hf; cbn in Hf; try lia; cbn [remove_loop].
    - rewrite (cursor_end _ _ _ H). eexists; split; [reflexivity|]. cbn. apply cursor_contains with (it := it). exact H.
    - destruct (cursor_value _ _ _ _ _ H) as [Hv (x & Hx)]. rewrite Hx, Hv.
      cbn [last_state kept]. destruct (cond s v) as [c s'] eqn:Ec. cbn [snd]. destruct c.
      + destruct (cursor_remove _ _ _ _ _ H) as (l' & it' & Hr & H' & _). rewrite Hr.
        apply IH; auto; lia.
      + destruct (cursor_next _ _ _ _ _ H) as (it' & Hn & H'). rewrite Hn.
        destruct (IH f s' l it' _ H') as (l' & E & C); [lia|]. exists l'; split; auto.
        rewrite <- app_assoc in C. exact C.
  Qed.
End Proofs.

(** ** Theorems *)
(** remove_if tests each element once, in order, and keeps exactly those for which the
    condition is false; the length is right. *)
Theorem remove_if_correct : forall V (veq : V -> V -> bool) S0 (cond : S0 -> V -> bool * S0) s l vs,
  contains l vs ->
  exists l', remove_if veq cond s l = Some (l', last_state cond s vs) /\ contains l' (kept cond s vs).
Proof.
  intros V veq S0 cond s l vs H. pose proof (cursor_start l vs H) as Hc.
  destruct H as [H _]. destruct (holds_seg _ _ _ H) as (B & HB).
  pose proof (seg_length _ _ _ _ HB). rewrite (seg_len _ _ _ _ _ HB) in H0.
  destruct (remove_loop_correct veq cond vs (S (length (ll_heap l))) s l (ll_iterator l) [] Hc) as (l' & E & C); [lia|].
  eauto.
Qed.
(** With a condition without state this is the ordinary filter. *)
Theorem remove_if_filter : forall V (veq : V -> V -> bool) (cond : V -> bool) l vs,
  contains l vs ->
  exists l', remove_if veq (fun s v => (cond v, s)) tt l = Some (l', tt) /\
             contains l' (filter (fun v => negb (cond v)) vs).
Proof.
  intros V veq cond l vs H.
  destruct (remove_if_correct V veq unit (fun s v => (cond v, s)) tt l vs H) as (l' & E & C).
  exists l'. assert (E1 : last_state (fun (s : unit) v => (cond v, s)) tt vs = tt) by (destruct (last_state _ _ _); auto).
  rewrite E1 in E. split; auto.
  replace (filter _ vs) with (kept (fun (s : unit) v => (cond v, s)) tt vs); auto.
  clear. induction vs as [|v vs IH]; cbn; auto. destruct (cond v); cbn; rewrite IH; auto.
Qed.
(** Every sequence of moves and removals of an iterator acts as on a cursor in a list. *)
Theorem iterator_correct : forall V (veq : V -> V -> bool) os l vs,
  contains l vs ->
  match cursor_ops os ([], vs), iter_ops veq os (l, ll_iterator l) with
  | Some (before, after), Some (l', it) =>
      contains l' (before ++ after) /\ it_value l' it = hd_error after
  | None, None => True
  | _, _ => False
  end.
Proof.
  intros V veq os l vs H. apply cursor_start in H.
  assert (Hg : forall os l it b a, at_cursor l it b a ->
    match cursor_ops os (b, a), iter_ops veq os (l, it) with
    | Some (before, after), Some (l', it) => contains l' (before ++ after) /\ it_value l' it = hd_error after
    | None, None => True
    | _, _ => False
    end).
  2:{ now apply Hg. }
  clear. induction os as [|o os IH]; intros l it b a H; cbn [cursor_ops iter_ops].
  - split. eapply cursor_contains; eauto. destruct a as [|v a].
    + unfold it_value. now rewrite (cursor_end _ _ _ H).
    + now destruct (cursor_value _ _ _ _ _ H).
  - destruct a as [|v a].
    + pose proof (cursor_end _ _ _ H) as E.
      destruct o; cbn; unfold it_next, it_remove; cbn; rewrite E; auto.
    + destruct o; cbn [cursor_op iter_op fst snd].
      * destruct (cursor_next _ _ _ _ _ H) as (it' & -> & H'). now apply IH.
      * destruct (cursor_remove veq _ _ _ _ _ H) as (l' & it' & -> & H' & _). now apply IH.
Qed.
(** Append relies on _tail being the last node reached from the root. *)
Inductive reached {V} (h : list (V * option nat)) : option nat -> nat -> Prop :=
  | reached_here t : reached h (Some t) t
  | reached_later a v n t : nth_error h a = Some (v, n) -> reached h n t -> reached h (Some a) t.
Definition tail_right {V} (l : llist V) : Prop :=
  ll_root l <> None -> exists t v, ll_tail l = Some t /\ nth_error (ll_heap l) t = Some (v, None) /\
     reached (ll_heap l) (ll_root l) t.
Lemma reached_seg {V} (h : list (V * option nat)) o t v : reached h o t -> nth_error h t = Some (v, None) ->
  exists A ws, seg h o (A ++ [t]) ws None.
Proof.
  induction 1 as [t|a w n t Hn _ IH]; intros Ht.
  - exists [], [v]. cbn. split; auto. exists None; auto.
  - destruct (IH Ht) as (A & ws & H). exists (a :: A), (w :: ws). cbn. split; auto. exists n; auto.
Qed.
Lemma seg_reached {V} (h : list (V * option nat)) A t : forall o ws e, seg h o (A ++ [t]) ws e -> reached h o t.
Proof.
  induction A as [|a A IH]; intros o [|w ws] e H; cbn in H; try contradiction;
    destruct H as [-> (n & Hn & H)]; [constructor|]. econstructor; eauto.
Qed.
Theorem append_correct : forall V (l : llist V) vs v,
  contains l vs -> tail_right l -> exists l', ll_append l v = Some l' /\ contains l' (vs ++ [v]) /\ tail_right l'.
Proof.
  intros V l vs v Hc Ht. pose proof Hc as [H Hl]. unfold ll_append.
  set (a := length (ll_heap l)).
  assert (Hin : forall h : list (V * option nat), length h = a -> nth_error (h ++ [(v, None)]) a = Some (v, None)).
  { intros h <-. rewrite nth_error_app2, Nat.sub_diag by lia. reflexivity. }
  destruct (ll_root l) as [r|] eqn:Er.
  - destruct (Ht ltac:(congruence)) as (t & w & Et & Hw & Hp). rewrite Et.
    destruct (reached_seg _ _ _ _ Hp Hw) as (A & ws & HA). rewrite Er in HA.
    destruct (holds_seg _ _ _ H) as (B & HB). destruct (seg_det _ _ _ _ _ _ HA HB) as [<- <-].
    pose proof (seg_nodup _ _ _ _ HA) as Hnd. apply NoDup_remove_2 in Hnd. rewrite app_nil_r in Hnd.
    destruct (seg_split _ _ _ _ _ _ HA) as (ws1 & w' & -> & S1 & S2). rewrite Hw in S2. injection S2 as <-.
    assert (Hs : seg (set_next (ll_heap l) t (Some a) ++ [(v, None)]) (Some r) ((A ++ [t]) ++ [a]) ((ws1 ++ [w]) ++ [v]) None).
    { eapply seg_snoc; [|reflexivity|].
      - eapply seg_snoc; [|reflexivity|].
        + eapply seg_ext; [|exact S1]. intros y Hy.
          rewrite nth_error_app1. apply set_next_other; intros ->; tauto.
          rewrite set_next_length. apply (seg_bound _ _ _ _ _ HA). rewrite in_app_iff; auto.
        + rewrite nth_error_app1. eapply set_next_same; eauto.
          rewrite set_next_length. apply nth_error_Some; congruence.
      - apply Hin. apply set_next_length. }
    eexists; split; [reflexivity|]. split; [split|].
    + cbn. eapply seg_holds; eauto.
    + cbn [ll_len]. rewrite Hl, !app_length. cbn [length]; lia.
    + intros _. exists a, v. cbn [ll_tail ll_heap ll_root]. repeat split; auto.
      * apply Hin, set_next_length.
      * eapply seg_reached; eauto.
  - eexists; split; [reflexivity|].
    assert (vs = []) as -> by (inversion H; auto).
    assert (Hs : seg (ll_heap l ++ [(v, None)]) (Some a) ([] ++ [a]) [v] None).
    { cbn. split; auto. exists None; auto. }
    split; [split|].
    + cbn. eapply seg_holds; eauto.
    + cbn. rewrite Hl. reflexivity.
    + intros _. exists a, v. cbn [ll_tail ll_heap ll_root]. repeat split; auto. eapply seg_reached; eauto.
Qed.
(** LinkedList(iterable) contains the elements in order. *)
Theorem linked_list_of_correct : forall V (vs : list V),
  exists l, ll_of vs = Some l /\ contains l vs /\ tail_right l.
Proof.
  intros V vs. unfold ll_of.
  assert (Hg : forall vs (l : llist V) ws, contains l ws -> tail_right l ->
     exists l', ll_extend l vs = Some l' /\ contains l' (ws ++ vs) /\ tail_right l').
  2:{ apply (Hg vs ll_empty []). split; [constructor|reflexivity]. intros C; cbn in C; congruence. }
  clear. induction vs as [|v vs IH]; intros l ws Hc Ht; cbn.
  - rewrite app_nil_r; eauto.
  - destruct (append_correct _ _ _ v Hc Ht) as (l' & -> & Hc' & Ht').
    destruct (IH _ _ Hc' Ht') as (l2 & E & C). rewrite <- app_assoc in C. eauto.
Qed.
(** Finding: after the last element was removed, a new element is appended to the removed
    node and lost, although the length counts it. *)
Theorem append_after_removed_tail_lost :
  exists l1 l2 l3, ll_of [1; 2; 3] = Some l1 /\ remove_if Nat.eqb (fun s v => (Nat.eqb v 3, s)) tt l1 = Some (l2, tt) /\
    ll_append l2 4 = Some l3 /\ holds (ll_heap l3) (ll_root l3) [1; 2] /\ ll_len l3 = 3%Z.
Proof.
  do 3 eexists. repeat (split; [vm_compute; reflexivity|]). split; [|reflexivity].
  econstructor; [reflexivity|]. econstructor; [reflexivity|]. constructor.
Qed.
(** Finding: iterating over the list omits the last element and raises on an empty list. *)
Theorem iteration_omits_last : forall V (l : llist V) vs, contains l vs ->
  ll_iterate l = match vs with [] => None | _ => Some (removelast vs) end.
Proof.
  intros V l vs H. pose proof (cursor_start l vs H) as Hc.
  destruct H as [H _]. destruct (holds_seg _ _ _ H) as (B & HB).
  pose proof (seg_length _ _ _ _ HB) as Hlen. rewrite (seg_len _ _ _ _ _ HB) in Hlen. clear HB.
  unfold ll_iterate.
  assert (Hg : forall after f it before, at_cursor l it before after -> length after < f ->
     iter_loop f l it = match after with [] => None | _ => Some (removelast after) end).
  2:{ rewrite (Hg vs _ (ll_iterator l) []); auto. lia. }
  clear. induction after as [|v after IH]; intros [|f] it before H Hf; cbn in Hf; try lia; cbn [iter_loop].
  - now rewrite (cursor_end _ _ _ H).
  - destruct (cursor_next _ _ _ _ _ H) as (it' & Hn & H'). rewrite Hn.
    assert (Hv : exists x n, it_node it = Some x /\ nth_error (ll_heap l) x = Some (v, n) /\ it_node it' = n).
    { destruct H as (A & B & _ & H2 & _). destruct B as [|x B]; cbn in H2; [contradiction|].
      destruct H2 as [E (n & Hx & _)]. exists x, n. repeat split; auto.
      unfold it_next, next_of in Hn. rewrite E, Hx in Hn. injection Hn as <-. reflexivity. }
    destruct Hv as (x & n & E & Hx & En). rewrite E, Hx.
    destruct n as [y|].
    + rewrite (IH f it' _ H') by lia.
      destruct after as [|v' after]; [|reflexivity].
      rewrite (cursor_end _ _ _ H') in En; discriminate.
    + destruct after as [|v' after]; [reflexivity|].
      destruct (cursor_value _ _ _ _ _ H') as [_ (z & Hz)]. congruence.
Qed.

Print Assumptions remove_if_correct.
Print Assumptions remove_if_filter.
Print Assumptions iterator_correct.
Print Assumptions append_correct.
Print Assumptions linked_list_of_correct.
Print Assumptions append_after_removed_tail_lost.
Print Assumptions iteration_omits_last.

(** A list of equal values, removing every second one: the comparison of nodes by value
    does not confuse them. *)
Example linked_list_ex :
  exists l1 l2, ll_of [7; 7; 7; 7; 7] = Some l1 /\ contains l1 [7; 7; 7; 7; 7] /\
    remove_if Nat.eqb (fun (s : bool) (_ : nat) => (s, negb s)) true l1 = Some (l2, false) /\
    contains l2 [7; 7].
Proof.
  destruct (linked_list_of_correct nat [7; 7; 7; 7; 7]) as (l1 & E1 & H1 & _).
  destruct (remove_if_correct nat Nat.eqb bool (fun s _ => (s, negb s)) true l1 _ H1) as (l2 & E2 & H2).
  exists l1, l2. repeat split; auto; try apply H1; apply H2.
Qed.
