(** Proofs about the elimination of loops. *)
From Coq Require Import ZArith List Bool Arith Lia.
From Verif Require Import TopoModel LoopModel.
Import ListNotations.

Lemma mem_true x l : mem x l = true <-> In x l.
Proof.
  unfold mem. rewrite existsb_exists. split.
  - intros (y & H & E). apply Nat.eqb_eq in E. now subst.
  - intros H. exists x. split; auto. apply Nat.eqb_refl.
Qed.

(** ** The dictionary *)
Lemma whas_in g u : whas g u = true <-> In u (map fst g).
Proof.
  unfold whas. rewrite existsb_exists, in_map_iff. split.
  - intros (e & H & E). apply Nat.eqb_eq in E. eauto.
  - intros (e & E & H). exists e. split; auto. now apply Nat.eqb_eq.
Qed.
Lemma wget_nokey g u : ~ In u (map fst g) -> wget g u = [].
Proof.
  induction g as [|[k l] g IH]; cbn; auto. intros H. destruct (Nat.eqb_spec k u); [subst; tauto|]. tauto.
Qed.
Lemma wget_app g h u : wget (g ++ h) u = if whas g u then wget g u else wget h u.
Proof.
  induction g as [|[k l] g IH]; cbn; auto. destruct (Nat.eqb_spec k u); cbn; auto.
Qed.
Lemma wtouch_get g u v : wget (wtouch g u) v = wget g v.
Proof.
  unfold wtouch. destruct (whas g u) eqn:E; auto. rewrite wget_app.
  destruct (whas g v) eqn:Ev; auto. rewrite (wget_nokey g v).
  - cbn. destruct (Nat.eqb u v); auto.
  - rewrite <- whas_in. congruence.
Qed.
Lemma wtouch_keys g u : incl (map fst g) (map fst (wtouch g u)).
Proof. unfold wtouch. destruct (whas g u). apply incl_refl. rewrite map_app. apply incl_appl, incl_refl. Qed.
Lemma wtouch_nodup g u : NoDup (map fst g) -> NoDup (map fst (wtouch g u)).
Proof.
  unfold wtouch. destruct (whas g u) eqn:E; auto. rewrite map_app. cbn. intros H.
  assert (N : ~ In u (map fst g)) by (rewrite <- whas_in; congruence).
  apply NoDup_rev in H. rewrite <- rev_involutive. apply NoDup_rev. rewrite rev_app_distr. cbn.
  constructor; auto. rewrite <- in_rev. auto.
Qed.
Lemma wtouch_key g u : In u (map fst (wtouch g u)).
Proof.
  unfold wtouch. destruct (whas g u) eqn:E. now apply whas_in. rewrite map_app, in_app_iff. cbn; auto.
Qed.
Lemma wtouch_links g u : concat (map snd (wtouch g u)) = concat (map snd g).
Proof.
  unfold wtouch. destruct (whas g u); auto. rewrite map_app, concat_app. cbn. now rewrite app_nil_r.
Qed.
Lemma wset_keys g u l : map fst (wset g u l) = map fst g.
Proof.
  unfold wset. rewrite map_map. apply map_ext. intros [k x]; cbn. destruct (Nat.eqb_spec k u); cbn; auto.
Qed.
Lemma wset_get g u l v : In u (map fst g) -> wget (wset g u l) v = if Nat.eqb v u then l else wget g v.
Proof.
  induction g as [|[k x] g IH]; intros H; [contradiction|].
  change (wset ((k, x) :: g) u l) with ((if Nat.eqb k u then (u, l) else (k, x)) :: wset g u l). cbn in H.
  destruct (Nat.eqb_spec k u).
  - subst. cbn [wget]. destruct (Nat.eqb_spec u v).
    + subst. rewrite Nat.eqb_refl. auto.
    + destruct (Nat.eqb_spec v u); [congruence|].
      destruct (in_dec Nat.eq_dec u (map fst g)) as [Hin|Hin].
      * rewrite (IH Hin). destruct (Nat.eqb_spec v u); congruence.
      * clear IH H. induction g as [|[k y] g IH]; cbn; auto. cbn in Hin.
        destruct (Nat.eqb_spec k u); [subst; tauto|]. cbn. destruct (Nat.eqb k v); auto.
  - cbn [wget]. destruct (Nat.eqb_spec k v).
    + subst. destruct (Nat.eqb_spec v u); [congruence|auto].
    + apply IH. destruct H; [congruence|auto].
Qed.
Lemma wset_count g u l : NoDup (map fst g) -> In u (map fst g) ->
  link_count (wset g u l) + length (wget g u) = link_count g + length l.
Proof.
  unfold link_count. induction g as [|[k x] g IH]; cbn; intros Hnd H; [contradiction|].
  inversion Hnd as [|? ? N Hnd']; subst. rewrite !app_length.
  destruct (Nat.eqb_spec k u).
  - subst. cbn.
    assert (E : map (fun e : nat * list (nat * option Z) => if Nat.eqb (fst e) u then (u, l) else e) g = g).
    { clear -N. induction g as [|[k y] g IH]; cbn; auto. cbn in N.
      destruct (Nat.eqb_spec k u); [subst; tauto|]. f_equal. tauto. }
    unfold wset. rewrite E. lia.
  - cbn. destruct H; [congruence|]. specialize (IH Hnd' H). unfold wset in IH. lia.
Qed.
Lemma wget_in g u n : In n (wget g u) -> In n (concat (map snd g)).
Proof.
  induction g as [|[k l] g IH]; cbn; auto. rewrite in_app_iff. destruct (Nat.eqb k u); auto.
Qed.
Lemma wget_haskey g u n : In n (wget g u) -> In u (map fst g).
Proof.
  intros H. destruct (in_dec Nat.eq_dec u (map fst g)); auto. rewrite wget_nokey in H; auto. contradiction.
Qed.

(** ** Nodes *)
Definition nodes_of (g : wgraph) : list nat := nodup Nat.eq_dec (map fst g ++ map fst (concat (map snd g))).
Lemma nodes_of_nodup g : NoDup (nodes_of g).
Proof. apply NoDup_nodup. Qed.
Lemma nodes_of_in g v : In v (nodes_of g) <-> In v (map fst g) \/ In v (map fst (concat (map snd g))).
Proof. unfold nodes_of. rewrite nodup_In, in_app_iff. tauto. Qed.
Lemma nodes_of_length g : length (nodes_of g) <= length g + link_count g.
Proof.
  unfold nodes_of, link_count.
  assert (Hn : forall l : list nat, length (nodup Nat.eq_dec l) <= length l).
  { induction l as [|x l IH]; cbn; auto. destruct (in_dec Nat.eq_dec x l); cbn; lia. }
  eapply Nat.le_trans; [apply Hn|]. rewrite app_length, !map_length. lia.
Qed.
Lemma sum_length_concat {A B} (f : A -> list B) l : length (concat (map f l)) = list_sum (map (fun x => length (f x)) l).
Proof. induction l; cbn; auto. rewrite app_length; auto. Qed.
Lemma degrees_bound g : forall U, NoDup U -> list_sum (map (fun v => length (wget g v)) U) <= link_count g.
Proof.
  unfold link_count. induction g as [|[k l] g IH]; intros U HU; cbn.
  - clear HU. induction U; cbn; auto.
  - rewrite app_length. specialize (IH U HU).
    enough (list_sum (map (fun v => length (if Nat.eqb k v then l else wget g v)) U)
            <= length l + list_sum (map (fun v => length (wget g v)) U)) by lia.
    clear IH. induction U as [|x U IHU]; cbn; [lia|]. inversion HU as [|? ? N HU']; subst.
    destruct (Nat.eqb_spec k x).
    + subst. enough (map (fun v => length (if Nat.eqb x v then l else wget g v)) U = map (fun v => length (wget g v)) U) as -> by lia.
      apply map_ext_in. intros v Hv. destruct (Nat.eqb_spec x v); [subst; tauto|auto].
    + specialize (IHU HU'). unfold list_sum in *. lia.
Qed.

(** ** Depth first search *)
Section Dfs.
  Variable nb : nat -> list (nat * option Z).
  Definition nbr v := map fst (nb v).

  Inductive shape_ok (st : marks) : option nat -> list (list nat * nat) -> Prop :=
    | shape_nil up : shape_ok st up []
    | shape_cons up s m rest :
        (forall n, In n (nbr m) -> st n = 2 \/ In n s \/ up = Some n) ->
        incl s (nbr m) ->
        (forall n, In n (nbr m) -> ~ In n (m :: map snd rest)) ->
        (forall x, up = Some x -> In x (nbr m)) ->
        shape_ok st (Some m) rest -> shape_ok st up ((s, m) :: rest).
  Definition stack_of (shape : list (list nat * nat)) := concat (map (fun x => fst x ++ [snd x]) shape).
  Lemma stack_of_cons s m r : stack_of ((s, m) :: r) = s ++ m :: stack_of r.
  Proof. unfold stack_of. cbn. now rewrite <- app_assoc. Qed.
  Fixpoint ordered (F : list nat) : Prop :=
    match F with
    | [] => True
    | x :: F' => (forall n, In n (nbr x) -> In n F') /\ ~ In x F' /\ ordered F'
    end.
  Record inv (k : nat) (st : marks) (stack : list nat) (shape : list (list nat * nat)) (bottom F : list nat) : Prop := {
    iv_stack : stack = stack_of shape ++ bottom;
    iv_shape : shape_ok st None shape;
    iv_nodup : NoDup (map snd shape);
    iv_one : forall v, st v = 1 <-> In v (map snd shape);
    iv_two : forall v, st v = 2 <-> In v F;
    iv_ord : ordered F;
    iv_le : forall v, st v <= 2;
    iv_base : match shape with [] => bottom = [k] \/ bottom = [] | _ => bottom = [] /\ last (map snd shape) 0 = k end }.

  Lemma shape_st st st' up shape : (forall v, st v = 2 -> st' v = 2) -> shape_ok st up shape -> shape_ok st' up shape.
  Proof.
    intros H. induction 1; constructor; auto. intros n Hn. destruct (H0 n Hn) as [E|[E|E]]; auto.
  Qed.
  Lemma shape_up_done st x shape : st x = 2 -> shape_ok st (Some x) shape -> shape_ok st None shape.
  Proof.
    intros E H. inversion H; subst; constructor; auto; [|discriminate].
    intros n Hn. destruct (H0 n Hn) as [E'|[E'|E']]; auto. injection E' as <-. auto.
  Qed.

  Lemma push_some st l stack s' : push_neighbours st l stack = Some s' ->
    s' = rev (filter (fun n => Nat.eqb (st n) 0) (map fst l)) ++ stack /\ forall n, In n (map fst l) -> st n <> 1.
  Proof.
    revert stack; induction l as [|[n w] l IH]; intros stack H; cbn in H.
    - injection H as <-. split; auto.
    - cbn. destruct (Nat.eqb_spec (st n) 0) as [E|E].
      + destruct (IH _ H) as [-> Hn]. split.
        * cbn. rewrite <- app_assoc. reflexivity.
        * intros m [<-|Hm]; auto. lia.
      + destruct (Nat.eqb_spec (st n) 1) as [E1|E1]; [discriminate|].
        destruct (IH _ H) as [-> Hn]. split; auto. intros m [<-|Hm]; auto.
  Qed.
  Lemma push_none st l stack : push_neighbours st l stack = None -> exists n, In n (map fst l) /\ st n = 1.
  Proof.
    revert stack; induction l as [|[n w] l IH]; intros stack H; cbn in H; [discriminate|].
    destruct (Nat.eqb (st n) 0). { destruct (IH _ H) as (m & Hm & E). exists m; cbn; auto. }
    destruct (Nat.eqb_spec (st n) 1). { exists n; cbn; auto. }
    destruct (IH _ H) as (m & Hm & E'). exists m; cbn; auto.
  Qed.

  Definition todo (st : marks) (U : list nat) : nat :=
    list_sum (map (fun v => if Nat.eqb (st v) 0 then S (length (nb v)) else 0) U).
  Lemma mark_same st v k : mark st v k v = k.
  Proof. unfold mark. now rewrite Nat.eqb_refl. Qed.
  Lemma mark_other st v k x : x <> v -> mark st v k x = st x.
  Proof. unfold mark. intros H. destruct (Nat.eqb_spec x v); congruence. Qed.
  Lemma todo_visit st U v : NoDup U -> In v U -> st v = 0 -> todo (mark st v 1) U + S (length (nb v)) = todo st U.
  Proof.
    unfold todo. induction U as [|x U IH]; intros Hnd Hin E; [contradiction|].
    inversion Hnd as [|? ? N Hnd']; subst. destruct Hin as [->|Hin]; cbn [map list_sum fold_right].
    - rewrite mark_same, E. cbn.
      enough (map (fun x => if Nat.eqb (mark st v 1 x) 0 then S (length (nb x)) else 0) U
              = map (fun x => if Nat.eqb (st x) 0 then S (length (nb x)) else 0) U) as -> by (unfold list_sum; lia).
      apply map_ext_in. intros y Hy. rewrite mark_other; auto. intros ->; tauto.
    - specialize (IH Hnd' Hin E). rewrite mark_other by (intros ->; tauto). unfold list_sum in *. lia.
  Qed.
  Lemma todo_finish st U v : st v <> 0 -> todo (mark st v 2) U = todo st U.
  Proof.
    intros H. unfold todo. f_equal. apply map_ext. intros x.
    destruct (Nat.eq_dec x v); [subst|now rewrite mark_other].
    rewrite mark_same. destruct (Nat.eqb_spec (st v) 0); [tauto|reflexivity].
  Qed.
  Lemma filter_le {A} (f : A -> bool) l : length (filter f l) <= length l.
  Proof. induction l; cbn; auto. destruct (f a); cbn; lia. Qed.

  (** what a search answers *)
  Definition dfs_answer (U : list nat) (k : nat) (stack F : list nat) (r : option (bool * wgraph * marks)) (g : wgraph) : Prop :=
    exists b g' st', r = Some (b, g', st') /\ (forall v, wget g' v = nb v) /\ (NoDup (map fst g) -> NoDup (map fst g')) /\
      incl (map fst g) (map fst g') /\ concat (map snd g') = concat (map snd g) /\
      if b then exists P, (forall v, st' v = 1 <-> In v P) /\ NoDup P /\ In k P /\ incl P U /\
                          (forall v, In v P -> exists n, In n (nbr v) /\ st' n = 1)
      else exists F', inv k st' [] [] [] F' /\ incl F F' /\ incl stack F'.

  Lemma dfs_correct k U : NoDup U -> (forall v n, In v U -> In n (nbr v) -> In n U) ->
    forall fuel g stack st shape bottom F,
    (forall v, wget g v = nb v) -> inv k st stack shape bottom F -> incl stack U ->
    length stack + todo st U <= fuel ->
    dfs_answer U k stack F (dfs_loop fuel g stack st) g.
  Proof.
    intros HU Hcl. induction fuel as [|f IH]; intros g stack st shape bottom F Hg Hinv Hst Hf.
    - destruct stack; cbn in Hf; [|lia]. cbn. exists false, g, st. repeat (split; [now auto using incl_refl|]).
      exists F. split; [|split; [apply incl_refl|intros ? []]].
      destruct shape as [|[s m] shape]; [|destruct Hinv as [H _ _ _ _ _ _ _]; cbn in H; destruct s; discriminate].
      destruct Hinv as [H1 H2 H3 H4 H5 H6 H7 H8]. cbn in H1. subst bottom. constructor; auto.
    - destruct stack as [|v rest].
      { cbn. exists false, g, st. repeat (split; [now auto using incl_refl|]).
        exists F. split; [|split; [apply incl_refl|intros ? []]].
        destruct shape as [|[s m] shape]; [|destruct Hinv as [H _ _ _ _ _ _ _]; cbn in H; destruct s; discriminate].
        destruct Hinv as [H1 H2 H3 H4 H5 H6 H7 H8]. cbn in H1. subst bottom. constructor; auto. }
      cbn [dfs_loop]. destruct Hinv as [H1 H2 H3 H4 H5 H6 H7 H8].
      assert (Hrest : incl rest U) by (intros x Hx; apply Hst; now right).
      destruct (Nat.eqb_spec (st v) 1) as [E1|E1].
      + (* finishing *)
        destruct shape as [|[s m] shape]; [apply H4 in E1; contradiction|].
        inversion H2 as [|? ? ? ? A1 A2 A3 A4 A5]; subst.
        destruct s as [|x s].
        * rewrite stack_of_cons in H1. injection H1 as -> ->. cbn in H3. inversion H3 as [|? ? N3 H3']; subst.
          assert (NF : ~ In m F) by (intros C; apply H5 in C; lia).
          assert (Hinv' : inv k (mark st m 2) (stack_of shape ++ bottom) shape bottom (m :: F)).
          { constructor; auto.
            - apply shape_up_done with (x := m). apply mark_same.
              apply shape_st with (st := st); auto. intros y Hy.
              destruct (Nat.eq_dec y m); [subst; apply mark_same|now rewrite mark_other].
            - intros y. destruct (Nat.eq_dec y m).
              + subst. rewrite mark_same. split; [discriminate|tauto].
              + rewrite mark_other by auto. rewrite H4. cbn. split; [intros [?|?]; [congruence|auto]|auto].
            - intros y. destruct (Nat.eq_dec y m).
              + subst. rewrite mark_same. cbn. tauto.
              + rewrite mark_other by auto. rewrite H5. cbn. split; [auto|intros [?|?]; [congruence|auto]].
            - cbn. repeat split; auto. intros n Hn. destruct (A1 n Hn) as [E|[[]|E]]; [now apply H5|discriminate].
            - intros y. destruct (Nat.eq_dec y m); [subst; rewrite mark_same; lia|rewrite mark_other; auto].
            - destruct shape as [|[s' m'] shape]; [destruct H8; auto|]. exact H8. }
          specialize (IH g _ _ _ _ _ Hg Hinv' Hrest).
          destruct IH as (b & g' & st' & E & I1 & I2 & I3 & I4 & I5).
          { rewrite todo_finish by lia. cbn in Hf. rewrite app_length in *. lia. }
          exists b, g', st'. rewrite E. repeat (split; [now auto|]).
          destruct b; auto. destruct I5 as (F' & J1 & J2 & J3). exists F'. split; auto.
          split. { intros y Hy. apply J2; now right. }
          intros y [<-|Hy]; [apply J2; now left|now apply J3].
        * exfalso. rewrite stack_of_cons in H1. injection H1 as -> ->. apply (A3 x); [apply A2; now left|]. apply H4 in E1. exact E1.
      + assert (Hpop : exists s' m' shape', shape = (v :: s', m') :: shape' /\ rest = (s' ++ [m']) ++ stack_of shape' ++ bottom
                        \/ shape = [] /\ bottom = v :: rest).
        { destruct shape as [|[s m] shape].
          - exists [], 0, []. right. cbn in H1. auto.
          - rewrite stack_of_cons in H1. destruct s as [|x s].
            + injection H1 as -> ->. exfalso. apply E1, H4. now left.
            + injection H1 as -> ->. exists s, m, shape. left. split; auto. rewrite <- !app_assoc. cbn. rewrite ?app_nil_r. reflexivity. }
        destruct (Nat.eqb_spec (st v) 2) as [E2|E2].
        * (* already finished *)
          assert (Hinv' : exists shape', inv k st rest shape' (match shape with [] => [] | _ => bottom end) F).
          { destruct Hpop as (s' & m' & shape' & [[-> ->]|[-> ->]]).
            - exists ((s', m') :: shape'). inversion H2 as [|? ? ? ? A1 A2 A3 A4 A5]; subst. constructor; auto.
              + rewrite stack_of_cons, <- !app_assoc. reflexivity.
              + constructor; auto. intros n Hn. destruct (A1 n Hn) as [E|[[<-|E]|E]]; auto.
                intros n Hn. apply A2; now right.
            - exists []. constructor; auto. cbn. destruct H8 as [H8|H8]; [|discriminate]. injection H8 as -> ->. auto. }
          destruct Hinv' as (shape' & Hinv').
          destruct (IH g _ _ _ _ _ Hg Hinv' Hrest) as (b & g' & st' & E & I1 & I2 & I3 & I4 & I5).
          { cbn in Hf. lia. }
          exists b, g', st'. rewrite E. repeat (split; [now auto|]).
          destruct b; auto. destruct I5 as (F' & J1 & J2 & J3). exists F'. split; auto. split; auto.
          intros y [<-|Hy]; [apply J2; now apply H5|now apply J3].
        * (* visiting *)
          assert (E0 : st v = 0) by (specialize (H7 v); lia).
          assert (HvU : In v U) by (apply Hst; now left).
          rewrite wtouch_get, Hg.
          set (st1 := mark st v 1).
          assert (Hnv : ~ In v (map snd shape)) by (rewrite <- H4; auto).
          (* shape after the visit *)
          destruct (push_neighbours st1 (nb v) (v :: rest)) as [stack'|] eqn:Ep.
          -- destruct (push_some _ _ _ _ Ep) as [-> Hno]. fold (nbr v) in Hno |- *.
             set (pushed := rev (filter (fun n => Nat.eqb (st1 n) 0) (nbr v))).
             assert (Hn1 : forall n, In n (nbr v) -> ~ In n (v :: map snd shape)).
             { intros n Hn C. apply (Hno n Hn). unfold st1. destruct (Nat.eq_dec n v); [subst; apply mark_same|].
               rewrite mark_other by auto. apply H4. destruct C; [congruence|auto]. }
             assert (Hpn : forall n, In n (nbr v) -> st1 n = 2 \/ In n pushed \/ None = Some n).
             { intros n Hn. assert (st1 n <= 2).
               { unfold st1. destruct (Nat.eq_dec n v); [subst; rewrite mark_same; lia|rewrite mark_other; auto]. }
               specialize (Hno n Hn). destruct (Nat.eq_dec (st1 n) 2); auto. right; left.
               unfold pushed. rewrite <- in_rev. apply filter_In. split; auto. apply Nat.eqb_eq. lia. }
             assert (Hpi : incl pushed (nbr v)).
             { intros n Hn. unfold pushed in Hn. rewrite <- in_rev in Hn. apply filter_In in Hn. tauto. }
             assert (Hst1 : forall y, st y = 2 -> st1 y = 2).
             { intros y Hy. unfold st1. rewrite mark_other; auto. intros ->; lia. }
             assert (Hinv' : exists shape', inv k st1 (pushed ++ v :: rest) ((pushed, v) :: shape')
                  (match shape with [] => [] | _ => bottom end) F).
             { destruct Hpop as (s' & m' & shape' & [[-> ->]|[-> ->]]).
               - exists ((s', m') :: shape'). inversion H2 as [|? ? ? ? A1 A2 A3 A4 A5]; subst.
                 constructor; auto.
                 + rewrite !stack_of_cons, <- !app_assoc. cbn. rewrite <- !app_assoc. reflexivity.
                 + constructor; auto. discriminate.
                   constructor; auto.
                   * intros n Hn. destruct (A1 n Hn) as [E|[[<-|E]|E]]; auto; discriminate.
                   * intros n Hn. apply A2; now right.
                   * intros x Ex. injection Ex as <-. apply A2; now left.
                   * apply shape_st with (st := st); auto.
                 + cbn in *. constructor; auto.
                 + intros y. unfold st1. cbn. destruct (Nat.eq_dec y v).
                   * subst. rewrite mark_same. tauto.
                   * rewrite mark_other by auto. rewrite H4. cbn. split; [auto|intros [?|?]; [congruence|auto]].
                 + intros y. unfold st1. destruct (Nat.eq_dec y v).
                   * subst. rewrite mark_same. split; [discriminate|]. intros C. apply H5 in C. lia.
                   * rewrite mark_other by auto. apply H5.
                 + intros y. unfold st1. destruct (Nat.eq_dec y v); [subst; rewrite mark_same; lia|rewrite mark_other; auto].
               - exists []. destruct H8 as [H8|H8]; [|discriminate]. injection H8 as -> ->.
                 constructor; auto.
                 + rewrite stack_of_cons. cbn. rewrite app_nil_r. reflexivity.
                 + constructor; auto. discriminate. constructor.
                 + cbn. constructor; [intros []|constructor].
                 + intros y. unfold st1. cbn. destruct (Nat.eq_dec y k).
                   * subst. rewrite mark_same. tauto.
                   * rewrite mark_other by auto. rewrite H4. cbn. split; [tauto|intros [?|?]; [congruence|auto]].
                 + intros y. unfold st1. destruct (Nat.eq_dec y k).
                   * subst. rewrite mark_same. split; [discriminate|]. intros C. apply H5 in C. lia.
                   * rewrite mark_other by auto. apply H5.
                 + intros y. unfold st1. destruct (Nat.eq_dec y k); [subst; rewrite mark_same; lia|rewrite mark_other; auto]. }
             destruct Hinv' as (shape' & Hinv').
             destruct (IH (wtouch g v) _ _ _ _ _ (fun x => eq_trans (wtouch_get g v x) (Hg x)) Hinv')
               as (b & g' & st' & E & I1 & I2 & I3 & I4 & I5).
             { intros y Hy. apply in_app_iff in Hy. destruct Hy as [Hy|Hy]; [|now apply Hst].
               apply Hcl with (v := v); auto. }
             { pose proof (todo_visit st U v HU HvU E0). fold st1 in H. cbn in Hf. rewrite app_length.
               unfold pushed. rewrite rev_length. cbn.
               pose proof (filter_le (fun n => Nat.eqb (st1 n) 0) (nbr v)) as Hl.
               unfold nbr in Hl at 2. rewrite map_length in Hl. lia. }
             exists b, g', st'. rewrite E. repeat (split; [now auto|]).
             split. { intros Hnd. apply I2. now apply wtouch_nodup. }
             split. { intros y Hy. apply I3. now apply wtouch_keys. }
             split. { now rewrite I4, wtouch_links. }
             destruct b; auto. destruct I5 as (F' & J1 & J2 & J3). exists F'. split; auto. split; auto.
             intros y Hy. apply J3. apply in_app_iff. now right.
          -- (* a loop *)
             destruct (push_none _ _ _ Ep) as (n & Hn & En).
             exists true, (wtouch g v), st1. split; auto. split. { intros x. now rewrite wtouch_get. }
             split. { apply wtouch_nodup. }
             split. { apply wtouch_keys. }
             split. { apply wtouch_links. }
             exists (v :: map snd shape).
             assert (Hone : forall y, st1 y = 1 <-> In y (v :: map snd shape)).
             { intros y. unfold st1. cbn. destruct (Nat.eq_dec y v).
               - subst. rewrite mark_same. tauto.
               - rewrite mark_other by auto. rewrite H4. split; [auto|intros [?|?]; [congruence|auto]]. }
             split; auto. split. { constructor; auto. }
             split.
             { destruct shape as [|[s m] shape].
               - destruct Hpop as (s' & m' & shape' & [[? _]|[_ ->]]); [discriminate|].
                 destruct H8 as [H8|H8]; [|discriminate]. injection H8 as -> ->. now left.
               - destruct H8 as [_ <-]. right. clear. set (l := map snd ((s, m) :: shape)).
                 assert (Hl : l <> []) by (cbn; discriminate).
                 destruct (exists_last Hl) as (l' & a & ->). rewrite last_last, in_app_iff. cbn; auto. }
             split.
             { intros y [<-|Hy]; auto. apply Hst. rewrite H1. apply in_app_iff. left.
               clear -Hy. induction shape as [|[s m] shape IH]; [contradiction|]. rewrite stack_of_cons.
               apply in_app_iff. right. destruct Hy as [<-|Hy]; [now left|]. right. auto. }
             { assert (Hup : forall up shape0, shape_ok st up shape0 ->
                  forall x, In x (map snd shape0) -> up = Some x -> True) by auto.
               assert (Hch : forall shape0 up, shape_ok st up shape0 -> forall y, In y (map snd shape0) ->
                  (exists s rest0, shape0 = (s, y) :: rest0) \/ exists m, In m (map snd shape0) /\ In m (nbr y)).
               { clear. induction shape0 as [|[s m] shape0 IH]; intros up H y Hy; [contradiction|].
                 destruct Hy as [E|Hy]; [cbn in E; subst; left; eauto|]. right.
                 inversion H as [|? ? ? ? A1 A2 A3 A4 A5]; subst.
                 destruct (IH _ A5 y Hy) as [(s1 & r1 & ->)|(m1 & Hm & Hn)].
                 - inversion A5; subst. exists m. cbn; auto.
                 - exists m1. cbn; auto. }
               intros y [<-|Hy]; [exists n; auto|].
               destruct Hpop as (s' & m' & shape' & [[-> ->]|[-> ->]]); [|contradiction].
               inversion H2 as [|? ? ? ? A1 A2 A3 A4 A5]; subst.
               destruct (Hch _ _ H2 y Hy) as [(s1 & r1 & E)|(m1 & Hm & Hn1)].
               - injection E as _ -> _. exists v. split; [apply A2; now left|]. apply Hone. now left.
               - exists m1. split; auto. apply Hone. now right. }
  Qed.
End Dfs.

(** ** The search for a cycle *)
Definition linked (nb : nat -> list (nat * option Z)) (a b : nat) : Prop := In b (nbr nb a).
(** consecutive elements of a reversed path *)
Fixpoint rlinked (nb : nat -> list (nat * option Z)) (path : list nat) : Prop :=
  match path with
  | b :: ((a :: _) as r) => linked nb a b /\ rlinked nb r
  | _ => True
  end.

Lemma follow_correct g nb st P : (forall v, wget g v = nb v) -> (forall v, st v = 1 <-> In v P) -> NoDup P ->
  (forall v, In v P -> exists n, In n (nbr nb v) /\ st n = 1) ->
  forall fuel v rest, incl (v :: rest) P -> NoDup rest -> rlinked nb (v :: rest) ->
    length P + 2 <= fuel + length (v :: rest) ->
    exists x r, follow fuel g st (v :: rest) = Some (x :: r) /\ In x r /\ NoDup r /\ rlinked nb (x :: r).
Proof.
  intros Hg H1 HP Hn. induction fuel as [|f IH]; intros v rest Hin Hnd Hl Hf.
  - exfalso. assert (length rest <= length P); [|cbn in Hf; lia].
    apply NoDup_incl_length; auto. intros y Hy; apply Hin; now right.
  - cbn [follow]. destruct (mem v rest) eqn:Em.
    + exists v, rest. apply mem_true in Em. auto.
    + assert (N : ~ In v rest) by (rewrite <- mem_true; congruence).
      destruct (Hn v (Hin v (or_introl eq_refl))) as (n & Hnn & En).
      rewrite Hg. destruct (find _ (nb v)) as [[m w]|] eqn:Ef.
      * apply find_some in Ef. destruct Ef as [Ef1 Ef2]. cbn in Ef2. apply Nat.eqb_eq in Ef2.
        apply IH.
        -- intros y [<-|Hy]; [now apply H1|now apply Hin].
        -- constructor; auto.
        -- cbn [rlinked]. split; auto. unfold linked, nbr. apply in_map_iff. exists (m, w); auto.
        -- cbn in *; lia.
      * exfalso. unfold nbr in Hnn. apply in_map_iff in Hnn. destruct Hnn as ([m w] & <- & Hm).
        apply (find_none _ _ Ef) in Hm. cbn in *. rewrite En in Hm. discriminate.
Qed.

Lemma visited_keys_spec g : NoDup (visited_keys g) /\ forall v, In v (visited_keys g) <-> In v (nodes_of g).
Proof.
  unfold visited_keys.
  assert (Hg : forall l acc, NoDup acc ->
     let r := fold_left (fun acc x => if mem x acc then acc else acc ++ [x]) l acc in
     NoDup r /\ forall v, In v r <-> In v acc \/ In v l).
  { induction l as [|x l IH]; intros acc Ha; cbn.
    - split; auto. tauto.
    - destruct (mem x acc) eqn:Em.
      + destruct (IH acc Ha) as [I1 I2]. split; auto. intros v. rewrite I2. apply mem_true in Em.
        split; [tauto|]. intros [?|[<-|?]]; auto.
      + assert (N : ~ In x acc) by (rewrite <- mem_true; congruence).
        destruct (IH (acc ++ [x])) as [I1 I2].
        { rewrite <- rev_involutive. apply NoDup_rev. rewrite rev_app_distr. cbn. constructor.
          rewrite <- in_rev; auto. now apply NoDup_rev. }
        split; auto. intros v. rewrite I2, in_app_iff. cbn. tauto. }
  destruct (Hg (concat (map (fun e => map fst (snd e) ++ [fst e]) g)) [] (NoDup_nil _)) as [I1 I2].
  split; auto. intros v. rewrite I2, nodes_of_in. cbn. clear.
  assert (E : In v (concat (map (fun e => map fst (snd e) ++ [fst e]) g)) <->
              In v (map fst g) \/ In v (map fst (concat (map snd g)))); [|tauto].
  induction g as [|[k l] g IH]; cbn; [tauto|]. rewrite !in_app_iff, map_app, in_app_iff, IH. cbn. tauto.
Qed.

Lemma todo_bound nb st U : todo nb st U <= length U + list_sum (map (fun v => length (nb v)) U).
Proof.
  unfold todo. induction U as [|x U IH]; cbn; [lia|]. unfold list_sum in *. destruct (Nat.eqb (st x) 0); cbn; lia.
Qed.

Lemma find_loop_correct g0 nb U : (forall v, wget g0 v = nb v) -> NoDup (map fst g0) -> U = visited_keys g0 ->
  forall keys g st F, incl keys U -> (forall v, wget g v = nb v) -> NoDup (map fst g) ->
  incl (map fst g0) (map fst g) -> concat (map snd g) = concat (map snd g0) ->
  inv nb 0 st [] [] [] F ->
  exists r, find_loop g keys (length U) st = Some r /\
    match r with
    | NoCycle g' => (forall v, wget g' v = nb v) /\ NoDup (map fst g') /\ concat (map snd g') = concat (map snd g0) /\
         exists F', ordered nb F' /\ incl keys F' /\ incl F F'
    | Cycle g' path => (forall v, wget g' v = nb v) /\ NoDup (map fst g') /\ concat (map snd g') = concat (map snd g0) /\
         exists x r, path = rev (x :: r) /\ In x r /\ NoDup r /\ rlinked nb (x :: r)
    end.
Proof.
  intros Hg0 Hnd0 ->. destruct (visited_keys_spec g0) as [HU1 HU2].
  assert (Hcl : forall v n, In v (visited_keys g0) -> In n (nbr nb v) -> In n (visited_keys g0)).
  { intros v n _ Hn. rewrite HU2, nodes_of_in. right. unfold nbr in Hn. rewrite <- Hg0 in Hn.
    apply in_map_iff in Hn. destruct Hn as (e & <- & He). apply in_map. eapply wget_in; eauto. }
  induction keys as [|k keys IH]; intros g st F Hk Hg Hnd Hkeys Hlinks Hinv; cbn [find_loop].
  - eexists; split; [reflexivity|]. cbn. repeat (split; [now auto|]).
    exists F. destruct Hinv. repeat split; auto using incl_refl. intros ? [].
  - assert (Hk' : incl keys (visited_keys g0)) by (intros y Hy; apply Hk; now right).
    destruct (Nat.eqb_spec (st k) 0) as [E0|E0].
    + assert (Hinv' : inv nb k st [k] [] [k] F).
      { destruct Hinv as [A1 A2 A3 A4 A5 A6 A7 A8]. constructor; auto. }
      unfold dfs_cycle.
      destruct (dfs_correct nb k (visited_keys g0) HU1 Hcl (dfs_fuel g) g [k] st [] [k] F Hg Hinv')
        as (b & g' & st' & E & I1 & I2 & I3 & I4 & I5).
      { intros y [<-|[]]. apply Hk; now left. }
      { pose proof (todo_bound nb st (visited_keys g0)) as B1.
        pose proof (degrees_bound g0 _ HU1) as B2.
        assert (B3 : length (visited_keys g0) <= length g0 + link_count g0).
        { eapply Nat.le_trans; [|apply nodes_of_length]. apply NoDup_incl_length; auto. intros y. now rewrite HU2. }
        assert (B4 : length g0 <= length g).
        { rewrite <- (map_length fst g0), <- (map_length fst g). now apply NoDup_incl_length. }
        unfold dfs_fuel. rewrite Hlinks. unfold link_count in *. cbn [length].
        erewrite map_ext in B1 by (intros; rewrite <- Hg0; reflexivity). lia. }
      rewrite E. destruct b.
      * destruct I5 as (P & P1 & P2 & P3 & P4 & P5).
        destruct (follow_correct g' nb st' P I1 P1 P2 P5 (S (S (length (visited_keys g0)))) k []) as (x & r & Ef & F1 & F2 & F3).
        { intros y [<-|[]]; auto. }
        { constructor. }
        { exact I. }
        { pose proof (NoDup_incl_length P2 P4). cbn; lia. }
        rewrite Ef. eexists; split; [reflexivity|]. cbn beta iota.
        split; auto. split; auto. split; [congruence|]. exists x, r; auto.
      * destruct I5 as (F1 & J1 & J2 & J3).
        destruct (IH g' st' F1) as (r & Er & Hr); auto.
        { intros y Hy. apply I3, Hkeys, Hy. }
        { congruence. }
        { destruct J1 as [A1 A2 A3 A4 A5 A6 A7 A8]. constructor; auto. }
        exists r. split; auto. destruct r as [g2|g2 path]; auto.
        destruct Hr as (R1 & R2 & R3 & F2 & K1 & K2 & K3). repeat (split; [now auto|]).
        exists F2. split; auto. split; [|intros y Hy; apply K3, J2, Hy].
        intros y [<-|Hy]; auto. apply K3, J3. now left.
    + destruct (IH g st F) as (r & Er & Hr); auto.
      exists r. split; auto. destruct r as [g2|g2 path]; auto.
      destruct Hr as (R1 & R2 & R3 & F2 & K1 & K2 & K3). repeat (split; [now auto|]).
      exists F2. split; auto. split; auto.
      intros y [<-|Hy]; auto. apply K3. destruct Hinv as [A1 A2 A3 A4 A5 A6 A7 A8].
      apply A5. specialize (A7 k). destruct (Nat.eq_dec (st k) 1) as [C|C]; [apply A4 in C; contradiction|lia].
Qed.
Lemma find_cycle_correct g : NoDup (map fst g) ->
  exists r, find_cycle g = Some r /\
    match r with
    | NoCycle g' => (forall v, wget g' v = wget g v) /\ NoDup (map fst g') /\ link_count g' = link_count g /\
         exists F, ordered (wget g) F /\ incl (nodes_of g) F
    | Cycle g' path => (forall v, wget g' v = wget g v) /\ NoDup (map fst g') /\ link_count g' = link_count g /\
         exists x r, path = rev (x :: r) /\ In x r /\ NoDup r /\ rlinked (wget g) (x :: r)
    end.
Proof.
  intros Hnd. unfold find_cycle.
  destruct (find_loop_correct g (wget g) _ (fun _ => eq_refl) Hnd eq_refl (visited_keys g) g (fun _ => 0) [])
    as (r & Er & Hr); auto using incl_refl.
  { constructor; cbn; auto; try tauto; try (intros; split; [discriminate|contradiction]). constructor. constructor. }
  exists r. split; auto. destruct (visited_keys_spec g) as [_ HU2]. unfold link_count.
  destruct r as [g2|g2 path].
  - destruct Hr as (R1 & R2 & R3 & F2 & K1 & K2 & K3). repeat (split; [now (auto; congruence)|]).
    exists F2. split; auto. intros y Hy. apply K2. now rewrite HU2.
  - destruct Hr as (R1 & R2 & R3 & R4). repeat (split; [now (auto; congruence)|]). auto.
Qed.
