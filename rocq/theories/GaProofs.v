(** Lemmas about the genetic search. *)
From Coq Require Import ZArith List Bool Lia Arith Permutation Sorted.
From Verif Require Import GeneticResModel GaModel.
Import ListNotations.
Local Open Scope Z_scope.

Definition le_all (a b : list Z) : Prop := Forall2 Z.le a b.
Lemma le_all_refl a : le_all a a.
Proof. induction a; constructor; [lia|assumption]. Qed.
Lemma le_all_trans a b c : le_all a b -> le_all b c -> le_all a c.
Proof.
  intros H. revert c. induction H as [|x y a b Hxy _ IH]; intros c Hc; inversion Hc; subst; [constructor|].
  constructor; [lia|apply IH; assumption].
Qed.
Lemma le_all_antisym a b : le_all a b -> le_all b a -> a = b.
Proof.
  induction 1 as [|x y a b Hxy _ IH]; intros H; inversion H; subst; [reflexivity|]. f_equal; [lia|apply IH; assumption].
Qed.
Lemma lists_eqb_eq a b : lists_eqb a b = true <-> a = b.
Proof.
  revert b. induction a as [|x a IH]; intros [|y b]; simpl; split; intros H; try discriminate; try reflexivity.
  - apply andb_true_iff in H as [H1 H2]. apply Z.eqb_eq in H1. apply IH in H2. congruence.
  - injection H as -> ->. rewrite Z.eqb_refl. apply IH. reflexivity.
Qed.
Lemma dominates_loop_true : forall a b, length a = length b ->
  dominates_loop true a b = true <-> le_all b a.
Proof.
  induction a as [|x a IH]; intros [|y b] L; simpl in *; try discriminate; [split; [constructor|reflexivity]|].
  assert (H := IH b ltac:(congruence)).
  destruct (Z.ltb_spec y x).
  - rewrite H. split; [intros K; constructor; [lia|exact K]|intros K; inversion K; assumption].
  - destruct (Z.ltb_spec x y).
    + split; [discriminate|intros K; inversion K; lia].
    + rewrite H. split; [intros K; constructor; [lia|exact K]|intros K; inversion K; assumption].
Qed.
Lemma dominates_spec : forall a b, length a = length b -> dominates a b = true <-> le_all b a /\ a <> b.
Proof.
  unfold dominates. induction a as [|x a IH]; intros [|y b] L; simpl in *; try discriminate.
  - split; [discriminate|intros [_ H]; congruence].
  - assert (H := IH b ltac:(congruence)). assert (H' := dominates_loop_true a b ltac:(congruence)).
    destruct (Z.ltb_spec y x).
    + rewrite H'. split; [intros K; split; [constructor; [lia|exact K]|intros [= -> ->]; lia]|intros [K _]; inversion K; assumption].
    + destruct (Z.ltb_spec x y).
      * split; [discriminate|intros [K _]; inversion K; lia].
      * assert (x = y) by lia. subst y. rewrite H. split.
        -- intros [K1 K2]. split; [constructor; [lia|exact K1]|congruence].
        -- intros [K1 K2]. inversion K1; subst. split; [assumption|congruence].
Qed.

(** ** Order of tuples *)
Lemma lex_lt_trans : forall a b c, length a = length b -> length b = length c ->
  lex_lt b a = false -> lex_lt c b = false -> lex_lt c a = false.
Proof.
  induction a as [|x a IH]; intros [|y b] [|z c] L1 L2 H1 H2; simpl in *; try discriminate; [reflexivity|].
  destruct (Z.ltb_spec y x); [discriminate|]. destruct (Z.ltb_spec z y); [discriminate|].
  destruct (Z.ltb_spec z x); [lia|]. destruct (Z.ltb_spec x z); [reflexivity|].
  assert (x = y) by lia. assert (y = z) by lia. subst y z. rewrite Z.ltb_irrefl in *. apply (IH b c); congruence || assumption.
Qed.
Lemma lex_lt_asym a b : lex_lt a b = true -> lex_lt b a = false.
Proof.
  revert b. induction a as [|x a IH]; intros [|y b]; simpl; intros H; try discriminate; try reflexivity.
  destruct (Z.ltb_spec x y); [destruct (Z.ltb_spec y x); [lia|reflexivity]|].
  destruct (Z.ltb_spec y x); [discriminate|]. apply IH. exact H.
Qed.
Lemma lex_le_all a b : le_all a b -> lex_lt b a = false.
Proof.
  induction 1 as [|x y a b H _ IH]; simpl; [reflexivity|].
  destruct (Z.ltb_spec y x); [lia|]. destruct (Z.ltb_spec x y); [reflexivity|exact IH].
Qed.
Lemma lex_one x y : lex_lt [x] [y] = (x <? y).
Proof. simpl. destruct (x <? y); [reflexivity|]. destruct (y <? x); reflexivity. Qed.

Section Front.
  Context {C : Type}.
  Variable w : list Z.
  Notation ind := (individual C).
  Notation ky := (key w).
  (** [a] is no worse than [b] in every objective *)
  Definition nw (a b : ind) : Prop := le_all (ky b) (ky a).
  Definition sized (x : ind) : Prop := length (i_values x) = length w.
  Lemma key_length x : sized x -> length (ky x) = length w.
  Proof.
    unfold key, weighted, sized. generalize (i_values x) as v. intros v. revert v. induction w as [|a w' IH]; intros [|b v] H; simpl in *; try discriminate; [reflexivity|].
    f_equal. apply IH. congruence.
  Qed.
  Lemma nw_refl a : nw a a. Proof. apply le_all_refl. Qed.
  Lemma nw_trans a b c : nw a b -> nw b c -> nw a c. Proof. intros H1 H2. eapply le_all_trans; eauto. Qed.
  Lemma dom_nw x y : sized x -> sized y -> dominates (ky x) (ky y) = true <-> nw x y /\ ky x <> ky y.
  Proof. intros Hx Hy. apply dominates_spec. rewrite !key_length; auto. Qed.

  (** members are pairwise incomparable *)
  Definition incomparable (l : list ind) : Prop := ForallOrdPairs (fun a b => ~ nw a b /\ ~ nw b a) l.
  Lemma incomparable_in l a b : incomparable l -> In a l -> In b l -> nw a b -> a = b.
  Proof.
    intros H Ha Hb Hn. destruct (ForallOrdPairs_In H _ _ Ha Hb) as [E|[[H1 _]|[_ H1]]]; [exact E|tauto|tauto].
  Qed.
  Definition covered (hof : list ind) (x : ind) : Prop := exists h, In h hof /\ nw h x.

  Lemma scan_spec : forall hof x d, incomparable hof -> (forall h, In h hof -> sized h) -> sized x ->
    forall skip kept, scan w d x hof = (skip, kept) ->
      incl kept hof /\ incomparable kept /\
      (forall h, In h hof -> In h kept \/ nw x h) /\
      (skip = true -> exists h, In h kept /\ nw h x) /\
      (skip = false -> (d = true -> forall h, In h hof -> ~ nw h x) -> forall h, In h kept -> ~ nw h x /\ ~ nw x h).
  Proof.
    induction hof as [|h r IH]; intros x d Hi Hs Hx skip kept H; simpl in H.
    - injection H as <- <-. split; [intros a []|]. split; [constructor|]. split; [intros a []|]. split; [discriminate|intros _ _ a []].
    - assert (Hh := Hs h (or_introl eq_refl)). inversion Hi as [|? ? Hhr Hr]; subst.
      rewrite Forall_forall in Hhr.
      destruct (negb d && dominates (ky h) (ky x)) eqn:E1.
      { injection H as <- <-. apply andb_true_iff in E1 as [_ E1]. apply dom_nw in E1; auto.
        split; [intros a; exact (fun z => z)|]. split; [exact Hi|]. split; [intros a Ha; left; exact Ha|].
        split; [intros _; exists h; split; [left; reflexivity|apply E1]|discriminate]. }
      destruct (dominates (ky x) (ky h)) eqn:E2.
      { apply dom_nw in E2; auto. destruct (IH x true Hr (fun a Ha => Hs a (or_intror Ha)) Hx _ _ H) as (A1 & A2 & A3 & A4 & A5).
        assert (Hno : forall a, In a r -> ~ nw a x).
        { intros a Ha Hn. apply (Hhr a Ha). eapply nw_trans; [exact Hn|apply E2]. }
        split; [intros a Ha; right; apply A1; exact Ha|]. split; [exact A2|].
        split; [intros a [<-|Ha]; [right; apply E2|apply A3; exact Ha]|]. split; [exact A4|].
        intros Hsk _. apply A5; auto. }
      destruct (lists_eqb (ky x) (ky h)) eqn:E3.
      { injection H as <- <-. apply lists_eqb_eq in E3.
        split; [intros a; exact (fun z => z)|]. split; [exact Hi|]. split; [intros a Ha; left; exact Ha|].
        split; [intros _; exists h; split; [left; reflexivity|unfold nw; rewrite E3; apply le_all_refl]|discriminate]. }
      destruct (scan w d x r) as [sk kp] eqn:Es. injection H as <- <-.
      destruct (IH x d Hr (fun a Ha => Hs a (or_intror Ha)) Hx _ _ Es) as (A1 & A2 & A3 & A4 & A5).
      assert (Hne : ky x <> ky h) by (intros E; apply lists_eqb_eq in E; congruence).
      assert (Hnd : ~ nw x h) by (intros Hn; assert (dominates (ky x) (ky h) = true) by (apply dom_nw; auto); congruence).
      split; [intros a [<-|Ha]; [left; reflexivity|right; apply A1; exact Ha]|].
      split; [constructor; [apply Forall_forall; intros a Ha; apply Hhr, A1, Ha|exact A2]|].
      split; [intros a [<-|Ha]; [left; left; reflexivity|destruct (A3 a Ha); [left; right; assumption|right; assumption]]|].
      split; [intros Hsk; destruct (A4 Hsk) as (a & ? & ?); exists a; split; [right; assumption|assumption]|].
      intros Hsk Hd a [<-|Ha].
      + split; [|exact Hnd]. destruct d; [apply Hd; [reflexivity|left; reflexivity]|].
        intros Hn. simpl in E1. assert (dominates (ky h) (ky x) = true) by (apply dom_nw; [exact Hh|exact Hx|split; [exact Hn|congruence]]). congruence.
      + apply A5; auto. intros D b Hb. apply Hd; [exact D|right; exact Hb].
  Qed.
  Lemma insert_perm (x : ind) l : Permutation (insert w x l) (x :: l).
  Proof.
    induction l as [|h r IH]; simpl; [reflexivity|]. destruct (lex_lt (ky x) (ky h)); [|reflexivity].
    rewrite IH. apply perm_swap.
  Qed.
  Lemma incomparable_perm l l' : Permutation l l' -> incomparable l -> incomparable l'.
  Proof.
    intros P. induction P as [|a l l' P IH|a b l|l1 l2 l3 P1 IH1 P2 IH2]; intros H.
    - constructor.
    - inversion H as [|? ? H1 H2]; subst. constructor; [|apply IH; exact H2].
      rewrite Forall_forall in *. intros b Hb. apply H1. eapply Permutation_in; [apply Permutation_sym; exact P|exact Hb].
    - inversion H as [|? ? H1 H2]; subst. inversion H2 as [|? ? H3 H4]; subst. inversion H1; subst.
      constructor; [constructor; [tauto|exact H3]|]. constructor; assumption.
    - auto.
  Qed.
  Lemma front_add_spec hof x : incomparable hof -> (forall h, In h hof -> sized h) -> sized x ->
    incomparable (front_add w hof x) /\ incl (front_add w hof x) (x :: hof) /\
    covered (front_add w hof x) x /\ (forall h, In h hof -> covered (front_add w hof x) h).
  Proof.
    intros Hi Hs Hx. unfold front_add. destruct (scan w false x hof) as [skip kept] eqn:E.
    destruct (scan_spec hof x false Hi Hs Hx _ _ E) as (A1 & A2 & A3 & A4 & A5). destruct skip.
    - destruct (A4 eq_refl) as (h & Hh & Hn). split; [exact A2|]. split; [intros a Ha; right; apply A1, Ha|].
      split; [exists h; auto|]. intros a Ha. destruct (A3 a Ha) as [Hk|Hxa]; [exists a; split; [exact Hk|apply nw_refl]|].
      exists h. split; [exact Hh|eapply nw_trans; eauto].
    - assert (A5' := A5 eq_refl ltac:(discriminate)). assert (P := insert_perm x kept).
      split; [|split; [|split]].
      + eapply incomparable_perm; [apply Permutation_sym; exact P|]. constructor; [|exact A2].
        apply Forall_forall. intros a Ha. destruct (A5' a Ha). tauto.
      + intros a Ha. apply (Permutation_in _ P) in Ha as [<-|Ha]; [left; reflexivity|right; apply A1, Ha].
      + exists x. split; [eapply Permutation_in; [apply Permutation_sym; exact P|left; reflexivity]|apply nw_refl].
      + intros a Ha. destruct (A3 a Ha) as [Hk|Hxa].
        * exists a. split; [eapply Permutation_in; [apply Permutation_sym; exact P|right; exact Hk]|apply nw_refl].
        * exists x. split; [eapply Permutation_in; [apply Permutation_sym; exact P|left; reflexivity]|exact Hxa].
  Qed.
  Lemma front_update_spec : forall pop hof, incomparable hof -> (forall h, In h hof -> sized h) -> (forall x, In x pop -> sized x) ->
    incomparable (front_update w hof pop) /\ incl (front_update w hof pop) (hof ++ pop) /\
    (forall x, In x (hof ++ pop) -> covered (front_update w hof pop) x).
  Proof.
    induction pop as [|x pop IH]; intros hof Hi Hs Hp; simpl.
    - rewrite app_nil_r. split; [exact Hi|]. split; [intros a; exact (fun z => z)|]. intros a Ha. exists a. split; [exact Ha|apply nw_refl].
    - destruct (front_add_spec hof x Hi Hs (Hp x (or_introl eq_refl))) as (B1 & B2 & B3 & B4).
      assert (Hs' : forall h, In h (front_add w hof x) -> sized h) by (intros h Hh; destruct (B2 h Hh) as [<-|Hh']; [apply Hp; left; reflexivity|apply Hs, Hh']).
      destruct (IH (front_add w hof x) B1 Hs' (fun a Ha => Hp a (or_intror Ha))) as (C1 & C2 & C3).
      split; [exact C1|]. split.
      + intros a Ha. apply C2, in_app_or in Ha as [Ha|Ha]; [apply B2 in Ha as [<-|Ha]|]; apply in_or_app; simpl; tauto.
      + assert (Hc : forall a, covered (front_add w hof x) a -> covered (front_update w (front_add w hof x) pop) a).
        { intros a (h & Hh & Hn). destruct (C3 h ltac:(apply in_or_app; left; exact Hh)) as (h' & Hh' & Hn'). exists h'. split; [exact Hh'|eapply nw_trans; eauto]. }
        intros a Ha. apply in_app_or in Ha as [Ha|[<-|Ha]]; [apply Hc, B4, Ha|apply Hc, B3|].
        apply C3, in_or_app. right. exact Ha.
  Qed.

  (** the members are sorted: the first is not below any other *)
  Definition sorted (l : list ind) : Prop := StronglySorted (fun a b => lex_lt (ky a) (ky b) = false) l.
  Lemma place_perm (x : ind) l : Permutation (place w x l) (x :: l).
  Proof.
    induction l as [|h r IH]; simpl; [reflexivity|]. destruct (lex_lt (ky x) (ky h)); [|reflexivity].
    rewrite IH. apply perm_swap.
  Qed.
  Lemma place_insert (x : ind) l : place w x l = insert w x l.
  Proof. induction l as [|h r IH]; simpl; [reflexivity|]. rewrite IH. reflexivity. Qed.
  Lemma insert_sorted x l : sized x -> (forall y, In y l -> sized y) -> sorted l -> sorted (insert w x l).
  Proof.
    intros Hx Hs H. induction H as [|h r Hr IH Hh]; simpl; [constructor; constructor|].
    destruct (lex_lt (ky x) (ky h)) eqn:E.
    - constructor; [apply IH; intros y Hy; apply Hs; right; exact Hy|]. apply Forall_forall. intros a Ha.
      apply (Permutation_in _ (insert_perm x r)) in Ha as [<-|Ha]; [apply lex_lt_asym; exact E|]. rewrite Forall_forall in Hh. apply Hh, Ha.
    - constructor; [constructor; assumption|]. constructor; [exact E|]. rewrite Forall_forall in *. intros a Ha.
      assert (Ea := Hh a Ha).
      apply (lex_lt_trans (ky a) (ky h) (ky x)); auto; rewrite !key_length; auto; apply Hs; simpl; auto.
  Qed.
  Lemma sort_perm (l : list ind) : Permutation (sort_best w l) l.
  Proof. induction l as [|x l IH]; simpl; [reflexivity|]. rewrite place_perm, IH. reflexivity. Qed.
  Lemma sort_sorted (l : list ind) : (forall x, In x l -> sized x) -> sorted (sort_best w l).
  Proof.
    induction l as [|x l IH]; intros H; simpl; [constructor|]. rewrite place_insert. apply insert_sorted.
    - apply H. left. reflexivity.
    - intros y Hy. apply H. right. eapply Permutation_in; [apply sort_perm|exact Hy].
    - apply IH. intros y Hy. apply H. right. exact Hy.
  Qed.
  (** the selection keeps an individual that is not below any other *)
  Lemma select_best_keeps k l : (0 < k)%nat -> l <> [] -> (forall x, In x l -> sized x) ->
    exists m, In m (select_best w k l) /\ forall x, In x l -> lex_lt (ky m) (ky x) = false.
  Proof.
    intros Hk Hl Hs. unfold select_best. assert (P := sort_perm l). assert (Hso := sort_sorted l Hs).
    destruct (sort_best w l) as [|m r]; [apply Permutation_nil in P; congruence|].
    destruct k as [|k]; [lia|]. exists m. split; [left; reflexivity|]. intros x Hx.
    apply (Permutation_in _ (Permutation_sym P)) in Hx as [<-|Hx].
    - destruct (lex_lt (ky m) (ky m)) eqn:E; [rewrite (lex_lt_asym _ _ E) in E; discriminate|reflexivity].
    - inversion Hso as [|? ? _ HF]; subst. rewrite Forall_forall in HF. apply HF, Hx.
  Qed.
  Lemma select_best_incl k (l : list ind) : incl (select_best w k l) l.
  Proof.
    intros x Hx. unfold select_best in Hx. eapply Permutation_in; [apply sort_perm|].
    rewrite <- (firstn_skipn k (sort_best w l)). apply in_or_app. left. exact Hx.
  Qed.
  (** one objective: everything is comparable *)
  Lemma one_objective a b : length w = 1%nat -> sized a -> sized b -> lex_lt (ky a) (ky b) = false <-> nw a b.
  Proof.
    intros L Ha Hb. assert (La := key_length a Ha). assert (Lb := key_length b Hb). rewrite L in La, Lb. unfold nw.
    destruct (ky a) as [|x [|]]; simpl in La; try lia. destruct (ky b) as [|y [|]]; simpl in Lb; try lia.
    rewrite lex_one. split; [intros H; constructor; [lia|constructor]|intros H; inversion H; lia].
  Qed.
  Lemma one_objective_front hof : length w = 1%nat -> incomparable hof -> (forall h, In h hof -> sized h) -> (length hof <= 1)%nat.
  Proof.
    intros L Hi Hs. destruct hof as [|a [|b r]]; [simpl; lia|simpl; lia|exfalso].
    inversion Hi as [|? ? H _]; subst. inversion H as [|? ? [H1 H2] _]; subst.
    assert (Sa := Hs a (or_introl eq_refl)). assert (Sb := Hs b (or_intror (or_introl eq_refl))).
    destruct (lex_lt (ky a) (ky b)) eqn:E; [apply H2|apply H1]; apply one_objective; auto.
    apply lex_lt_asym. exact E.
  Qed.
End Front.

Lemma sequence_spec {A B} (f : A -> option B) : forall l r, sequence (map f l) = Some r -> Forall2 (fun x y => f x = Some y) l r.
Proof.
  induction l as [|x l IH]; intros r H; simpl in H; [injection H as <-; constructor|].
  destruct (f x) as [y|] eqn:E; [|discriminate]. destruct (sequence (map f l)) as [r'|]; [|discriminate].
  injection H as <-. constructor; [exact E|apply IH; reflexivity].
Qed.
Lemma sequence_total {A B} (f : A -> option B) : forall l, (forall x, In x l -> exists y, f x = Some y) -> exists r, sequence (map f l) = Some r.
Proof.
  induction l as [|x l IH]; intros H; simpl; [eauto|]. destruct (H x (or_introl eq_refl)) as [y ->].
  destruct IH as [r ->]; [intros; apply H; right; assumption|eauto].
Qed.
Lemma forall2_right {A B} (P : A -> B -> Prop) l r y : Forall2 P l r -> In y r -> exists x, In x l /\ P x y.
Proof. induction 1 as [|a b l r H _ IH]; intros Hy; [destruct Hy|]. destruct Hy as [<-|Hy]; [exists a; simpl; auto|]. destruct (IH Hy) as (x & ? & ?). exists x. simpl. auto. Qed.
Lemma forall2_left {A B} (P : A -> B -> Prop) l r x : Forall2 P l r -> In x l -> exists y, In y r /\ P x y.
Proof. induction 1 as [|a b l r H _ IH]; intros Hy; [destruct Hy|]. destruct Hy as [<-|Hy]; [exists b; simpl; auto|]. destruct (IH Hy) as (z & ? & ?). exists z. simpl. auto. Qed.

Section Search.
  Context {C : Type}.
  Notation ind := (individual C).
  Variable shuffle : nat -> nat -> list ind -> list ind.
  Variable offspring : nat -> nat -> bool -> list C -> option (list C).
  Variable timeout : nat -> nat -> bool.
  Variable nsga2 : nat -> nat -> list ind -> list ind.
  Variable multi : bool.
  Variable size : nat.
  Hypothesis shuffle_ok : forall s g l, Permutation (shuffle s g l) l.
  Hypothesis nsga2_ok : forall s g l, incl (nsga2 s g l) l.
  Notation run := (generations shuffle offspring timeout nsga2 multi size).

  Lemma select_incl w s g l : incl (select nsga2 multi size w s g l) l.
  Proof. unfold select. destruct multi; [apply nsga2_ok|apply select_best_incl]. Qed.


  Definition stage_ok (w : list Z) (good : ind -> Prop) (st : stage C) : Prop :=
    incomparable w (st_hof st) /\ incl (st_hof st) (st_seen st) /\ incl (st_pop st) (st_seen st) /\
    (forall x, In x (st_seen st) -> good x) /\
    (exists h r, st_hof st = h :: r /\ st_best st = i_values h) /\
    (forall x, In x (st_pop st) -> covered w (st_hof st) x).

  Section Loop.
    Variable w : list Z.
    Variable eval : list C -> option (list ind).
    Variable enough : list Z -> list ind -> bool.
    Variable good : ind -> Prop.
    Hypothesis good_sized : forall x, good x -> sized w x.
    Hypothesis eval_good : forall cs off, eval cs = Some off -> forall x, In x off -> good x.

    Lemma run_step pop hof best gen seen off s g : stage_ok w good (Stage pop hof best gen seen) ->
      (forall x, In x off -> good x) ->
      let pop2 := select nsga2 multi size w s g (shuffle s g pop ++ off) in
      let hof2 := front_update w hof pop2 in
      exists h r, hof2 = h :: r /\ stage_ok w good (Stage pop2 hof2 (i_values h) gen (seen ++ off)) /\
        (forall x, covered w hof x -> covered w hof2 x).
    Proof.
      intros (A1 & A2 & A3 & A4 & (h0 & r0 & E0 & _) & A6) Hoff pop2 hof2. cbn [st_hof st_pop st_seen st_best] in *.
      assert (Hp2 : incl pop2 (seen ++ off)).
      { intros x Hx. apply select_incl, in_app_or in Hx as [Hx|Hx]; apply in_or_app; [left; apply A3|right; exact Hx].
        eapply Permutation_in; [apply shuffle_ok|exact Hx]. }
      assert (Hg : forall x, In x (seen ++ off) -> good x) by (intros x Hx; apply in_app_or in Hx as [Hx|Hx]; auto).
      destruct (front_update_spec w pop2 hof A1) as (B1 & B2 & B3).
      { intros h Hh. apply good_sized, A4, A2, Hh. }
      { intros x Hx. apply good_sized, Hg, Hp2, Hx. }
      fold hof2 in B1, B2, B3. destruct hof2 as [|h r] eqn:E2.
      - exfalso. destruct (B3 h0) as (y & [] & _). rewrite E0. left. reflexivity.
      - exists h, r. split; [reflexivity|]. split.
        + split; [exact B1|]. split; [|split; [exact Hp2|split; [exact Hg|split]]]; cbn [st_hof st_pop st_seen st_best].
          * intros x Hx. apply B2, in_app_or in Hx as [Hx|Hx]; [apply in_or_app; left; apply A2, Hx|apply Hp2, Hx].
          * exists h, r. auto.
          * intros x Hx. apply B3, in_or_app. right. exact Hx.
        + intros x (y & Hy & Hn). destruct (B3 y) as (z & Hz & Hn'); [apply in_or_app; left; exact Hy|].
          exists z. split; [exact Hz|eapply nw_trans; eauto].
    Qed.
    Lemma run_spec : forall left opt mp s gen pl pop hof best seen st,
      run w eval enough opt mp s left gen pl pop hof best seen = Some st ->
      stage_ok w good (Stage pop hof best gen seen) ->
      stage_ok w good st /\ incl seen (st_seen st) /\ (forall x, covered w hof x -> covered w (st_hof st) x).
    Proof.
      induction left as [|left IH]; intros opt mp s gen pl pop hof best seen st H Hok; cbn [generations] in H.
      { injection H as <-. split; [exact Hok|]. split; [intros x; exact (fun z => z)|intros x; exact (fun z => z)]. }
      destruct (_ && _) in H; [|injection H as <-; split; [exact Hok|]; split; [intros x; exact (fun z => z)|intros x; exact (fun z => z)]].
      cbv zeta in H. destruct (offspring _ _ _ _) as [cs|]; [|discriminate].
      destruct (eval cs) as [off|] eqn:Ee; [|discriminate].
      destruct (run_step pop hof best gen seen off s gen Hok (eval_good _ _ Ee)) as (h & r & Eh & Hok2 & Hcov).
      rewrite Eh in *. destruct (enough _ _).
      - injection H as <-. split; [exact Hok2|]. split; [intros x Hx; apply in_or_app; left; exact Hx|exact Hcov].
      - apply IH in H; [|exact Hok2]. destruct H as (H1 & H2 & H3). split; [exact H1|]. split; [intros x Hx; apply H2, in_or_app; left; exact Hx|auto].
    Qed.

    (** one objective: the population keeps a best of all that were evaluated *)
    Definition keeps_best (st : stage C) : Prop := exists m, In m (st_pop st) /\ forall x, In x (st_seen st) -> nw w m x.
    Hypothesis one : length w = 1%nat.
    Hypothesis single : multi = false.
    Hypothesis room : (0 < size)%nat.
    Lemma run_best : forall left opt mp s gen pl pop hof best seen st,
      run w eval enough opt mp s left gen pl pop hof best seen = Some st ->
      stage_ok w good (Stage pop hof best gen seen) -> keeps_best (Stage pop hof best gen seen) -> keeps_best st.
    Proof.
      induction left as [|left IH]; intros opt mp s gen pl pop hof best seen st H Hok Hb; cbn [generations] in H.
      { injection H as <-. exact Hb. }
      destruct (_ && _) in H; [|injection H as <-; exact Hb].
      cbv zeta in H. destruct (offspring _ _ _ _) as [cs|]; [|discriminate].
      destruct (eval cs) as [off|] eqn:Ee; [|discriminate].
      destruct (run_step pop hof best gen seen off s gen Hok (eval_good _ _ Ee)) as (h & r & Eh & Hok2 & _).
      rewrite Eh in *.
      assert (Hb2 : keeps_best (Stage (select nsga2 multi size w s gen (shuffle s gen pop ++ off)) (h :: r) (i_values h) gen (seen ++ off))).
      { unfold keeps_best. cbn [st_pop st_seen]. destruct Hb as (m & Hm & Hbest). cbn [st_pop st_seen] in *.
        destruct Hok as (_ & _ & A3 & A4 & _ & _). cbn [st_pop st_seen] in *.
        assert (Hmem : forall x, In x (shuffle s gen pop ++ off) -> In x seen \/ In x off).
        { intros x Hx. apply in_app_or in Hx as [Hx|Hx]; [left; apply A3; eapply Permutation_in; [apply shuffle_ok|exact Hx]|right; exact Hx]. }
        assert (Hsz : forall x, In x (shuffle s gen pop ++ off) -> sized w x).
        { intros x Hx. apply good_sized. destruct (Hmem x Hx); [apply A4; assumption|eapply eval_good; eauto]. }
        assert (Hm' : In m (shuffle s gen pop ++ off)) by (apply in_or_app; left; eapply Permutation_in; [apply Permutation_sym, shuffle_ok|exact Hm]).
        unfold select. rewrite single.
        destruct (select_best_keeps w size (shuffle s gen pop ++ off) room) as (m2 & M1 & M2); [intros E; rewrite E in Hm'; destruct Hm'|exact Hsz|].
        assert (Hsm : sized w m2) by (apply Hsz, (select_best_incl w size), M1).
        exists m2. split; [exact M1|]. intros x Hx. apply in_app_or in Hx as [Hx|Hx].
        - eapply nw_trans; [apply one_objective; [exact one|exact Hsm|apply Hsz; exact Hm'|apply M2; exact Hm']|apply Hbest, Hx].
        - apply one_objective; [exact one|exact Hsm| |]; [apply Hsz|apply M2]; apply in_or_app; right; exact Hx. }
      destruct (enough _ _).
      - injection H as <-. exact Hb2.
      - apply IH in H; auto.
    Qed.
  End Loop.

  (** ** Totality *)
  Section Total.
    Variable valid : bool -> C -> Prop.
    Variable w : list Z.
    Variable eval : list C -> option (list ind).
    Variable enough : list Z -> list ind -> bool.
    Variable good : ind -> Prop.
    Variable opt : bool.
    Hypothesis good_sized : forall x, good x -> sized w x.
    Hypothesis good_valid : forall x, good x -> valid opt (i_ch x).
    Hypothesis offspring_ok : forall s g cs, Forall (valid opt) cs -> exists cs', offspring s g opt cs = Some cs' /\ Forall (valid opt) cs'.
    Hypothesis eval_ok : forall cs, Forall (valid opt) cs -> exists off, eval cs = Some off /\ forall x, In x off -> good x.
    Lemma run_total : forall left mp s gen pl pop hof best seen,
      stage_ok w good (Stage pop hof best gen seen) ->
      exists st, run w eval enough opt mp s left gen pl pop hof best seen = Some st /\ stage_ok w good st.
    Proof.
      induction left as [|left IH]; intros mp s gen pl pop hof best seen Hok; cbn [generations]; [eauto|].
      destruct (_ && _); [|eauto]. cbv zeta.
      destruct (offspring_ok s gen (map i_ch (shuffle s gen pop))) as (cs & -> & Hcs).
      { apply Forall_forall. intros c Hc. apply in_map_iff in Hc as (x & <- & Hx). apply good_valid.
        destruct Hok as (_ & _ & A3 & A4 & _). apply A4, A3. eapply Permutation_in; [apply shuffle_ok|exact Hx]. }
      destruct (eval_ok cs Hcs) as (off & -> & Hoff).
      destruct (run_step w good good_sized pop hof best gen seen off s gen Hok Hoff) as (h & r & Eh & Hok2 & _).
      rewrite Eh in *. destruct (enough _ _); [eauto|]. apply IH. exact Hok2.
    Qed.
  End Total.
End Search.
