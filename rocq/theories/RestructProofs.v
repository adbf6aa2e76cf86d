(** Proofs about the restructuring of a whole graph. *)
From Coq Require Import ZArith QArith Qround List Bool Lia Lqa Permutation Sorted Setoid.
From Verif Require Import GraphModel ScheduleSpec Digraph RestructModel RestructSplit.
Import ListNotations.
Local Open Scope Q_scope.

Lemma nid_eqb_spec a b : nid_eqb a b = true <-> a = b.
Proof.
  destruct a as [x [i|]], b as [y [j|]]; unfold nid_eqb; cbn [fst snd]; rewrite andb_true_iff, ?Nat.eqb_eq; split; intros H; try (destruct H; congruence); try (injection H; auto; fail); try discriminate; auto.
Qed.
Lemma has_node_in nodes i : has_node nodes i = true <-> In i (map st_id nodes).
Proof.
  unfold has_node. rewrite existsb_exists, in_map_iff. split; intros (s & H1 & H2); exists s.
  - apply nid_eqb_spec in H2. auto.
  - split; [exact H2|]. apply nid_eqb_spec. exact H1.
Qed.
Lemma pair_eqb_spec a b : pair_eqb a b = true <-> a = b.
Proof. destruct a, b. unfold pair_eqb. cbn [fst snd]. rewrite andb_true_iff, !Nat.eqb_eq. split; [intros [-> ->]; reflexivity|]. intros [= -> ->]. auto. Qed.
Lemma d_set_same d k v : d_set d (k, v) k = Some v.
Proof. unfold d_set. cbn [fst snd]. assert (E : pair_eqb k k = true) by now apply pair_eqb_spec. now rewrite E. Qed.
Lemma d_set_other d k v k' : k' <> k -> d_set d (k, v) k' = d k'.
Proof. intros H. unfold d_set. cbn [fst snd]. destruct (pair_eqb k' k) eqn:E; [apply pair_eqb_spec in E; contradiction|reflexivity]. Qed.
Lemma d_del_other d k k' : k' <> k -> d_del d k k' = d k'.
Proof. intros H. unfold d_del. destruct (pair_eqb k' k) eqn:E; [apply pair_eqb_spec in E; contradiction|reflexivity]. Qed.
Lemma d_sets_spec : forall ms d, NoDup (map fst ms) ->
  (forall k v, In (k, v) ms -> fold_left d_set ms d k = Some v) /\ (forall k, ~ In k (map fst ms) -> fold_left d_set ms d k = d k).
Proof.
  induction ms as [|[k0 v0] ms IH]; intros d Hnd; cbn [fold_left map fst]; [split; [intros k v []|reflexivity]|].
  inversion Hnd as [|? ? N1 N2]; subst. destruct (IH (d_set d (k0, v0)) N2) as [I1 I2]. split.
  - intros k v [[= -> ->]|H]; [|apply I1, H]. rewrite (I2 k N1). apply d_set_same.
  - intros k Hk. rewrite I2; [apply d_set_other|]; intros H; apply Hk; [left; auto|right; exact H].
Qed.

(** Kinds of edges that constrain the start, or the finish, of the later work by a part of
    the work. *)
Definition start_kind (t : edge_type) : bool := match t with SS | FFS => true | _ => false end.
Definition finish_kind (t : edge_type) : bool := match t with FF | FFS => true | _ => false end.

(** ** The parents of one work *)
Section Fill.
  Variables (use_lag : bool) (nodes : list stage) (w : nat) (f : nid) (D0 : dict).
  Definition out (s : fstate) : list nedge := fs_now s ++ to_node f (fs_first s) ++ to_node (w, None) (fs_last s).
  (** the new edges an original edge gives *)
  Definition piece (e : redge) (ne : nedge) : Prop :=
    let u := re_from e in
    match re_type e with
    | IFS => ne = NE (u, None) f 0 IFS
    | FS => ne = NE (u, None) f (inject_Z (Qceiling (re_lag e))) FS
    | SS => if use_lag then exists p, D0 (u, w) = Some p /\ ne = NE p f 0 FS else ne = NE (u, Some 0%nat) f 0 FS
    | FF => if use_lag then exists q, D0 (w, u) = Some q /\ ne = NE (u, None) q 0 FS else ne = NE (u, None) (w, None) 0 FS
    | FFS => if use_lag then (exists p, D0 (u, w) = Some p /\ ne = NE p f 0 FS) \/ (exists q, D0 (w, u) = Some q /\ ne = NE (u, None) q 0 FS)
             else ne = NE (u, None) f 0 FS
    end.
  Record ready (s : fstate) (e : redge) : Prop := {
    ry_to : re_to e = w;
    ry_ne : re_from e <> w;
    ry_last : In (re_from e, None) (map st_id nodes);
    ry_first : use_lag = false -> re_type e = SS -> In (re_from e, Some 0%nat) (map st_id nodes);
    ry_start : use_lag = true -> start_kind (re_type e) = true -> exists p, D0 (re_from e, w) = Some p /\ fs_dict s (re_from e, w) = Some p /\ In p (map st_id nodes);
    ry_finish : use_lag = true -> finish_kind (re_type e) = true -> exists q, D0 (w, re_from e) = Some q /\ fs_dict s (w, re_from e) = Some q /\ In q (map st_id nodes)
  }.
  Lemma fill_edge_ok s e : ready s e -> exists s', fill_edge use_lag nodes s e = Some s' /\
    (forall ne, In ne (out s') <-> In ne (out s) \/ piece e ne) /\
    (forall k, (start_kind (re_type e) = true -> k <> (re_from e, w)) -> (finish_kind (re_type e) = true -> k <> (w, re_from e)) -> fs_dict s' k = fs_dict s k).
  Proof.
    intros [R1 R2 R3 R4 R5 R6]. unfold fill_edge, piece. rewrite R1. set (u := re_from e) in *.
    assert (HL : has_node nodes (u, None) = true) by (apply has_node_in; exact R3).
    assert (OF : forall p lag t ne, In ne (fs_now s ++ to_node f (fs_first s ++ [(p, lag, t)]) ++ to_node (w, None) (fs_last s)) <-> In ne (out s) \/ ne = NE p f lag t).
    { intros p lag t ne. unfold out, to_node. rewrite map_app, !in_app_iff. cbn [map In]. intuition. }
    assert (ON : forall q ne, In ne ((fs_now s ++ [NE (u, None) q 0 FS]) ++ to_node f (fs_first s) ++ to_node (w, None) (fs_last s)) <-> In ne (out s) \/ ne = NE (u, None) q 0 FS).
    { intros q ne. unfold out, to_node. rewrite !in_app_iff. cbn [map In]. intuition. }
    destruct (re_type e) eqn:Et; cbn [start_kind finish_kind] in *.
    - unfold with_node. rewrite HL. eexists. split; [reflexivity|]. split; [intros ne; unfold out at 1; cbn [fs_now fs_first fs_last]; apply OF|reflexivity].
    - destruct use_lag eqn:U.
      + destruct (R5 eq_refl eq_refl) as (p & P1 & P2 & P3). destruct (R6 eq_refl eq_refl) as (q & Q1 & Q2 & Q3). rewrite P2.
        rewrite d_del_other by congruence. rewrite Q2. unfold with_node. apply has_node_in in P3, Q3. rewrite P3, Q3, HL. eexists. split; [reflexivity|]. split.
        * intros ne. unfold out, to_node. cbn [fs_now fs_first fs_last]. rewrite map_app, !in_app_iff. cbn [map In]. split.
          -- intros [[H|[<-|[]]]|[[H|[<-|[]]]|H]]; eauto 10.
          -- intros [[H|[H|H]]|[(p' & E1 & ->)|(q' & E1 & ->)]]; auto 10; [assert (p' = p) by congruence; subst p'; auto 10|assert (q' = q) by congruence; subst q'; auto 10].
        * intros k K1 K2. cbn [fs_dict]. rewrite !d_del_other; auto.
      + unfold with_node. rewrite HL. eexists. split; [reflexivity|]. split; [intros ne; unfold out at 1; cbn [fs_now fs_first fs_last]; apply OF|reflexivity].
    - destruct use_lag eqn:U.
      + destruct (R5 eq_refl eq_refl) as (p & P1 & P2 & P3). rewrite P2. unfold with_node. apply has_node_in in P3. rewrite P3. eexists. split; [reflexivity|]. split.
        * intros ne. unfold out at 1. cbn [fs_now fs_first fs_last]. rewrite OF. split; [intros [H| ->]; eauto|]. intros [H|(p' & E1 & ->)]; [auto|]. assert (p' = p) by congruence. subst. auto.
        * intros k K1 _. cbn [fs_dict]. apply d_del_other; auto.
      + assert (HS : has_node nodes (u, Some 0%nat) = true) by (apply has_node_in, R4; reflexivity). unfold with_node. rewrite HS. eexists. split; [reflexivity|]. split; [intros ne; unfold out at 1; cbn [fs_now fs_first fs_last]; apply OF|reflexivity].
    - destruct use_lag eqn:U.
      + destruct (R6 eq_refl eq_refl) as (q & Q1 & Q2 & Q3). rewrite Q2. unfold with_node. apply has_node_in in Q3. rewrite Q3, HL. eexists. split; [reflexivity|]. split.
        * intros ne. unfold out at 1. cbn [fs_now fs_first fs_last]. rewrite ON. split; [intros [H| ->]; eauto|]. intros [H|(q' & E1 & ->)]; [auto|]. assert (q' = q) by congruence. subst. auto.
        * intros k _ K2. cbn [fs_dict]. apply d_del_other; auto.
      + unfold with_node. rewrite HL. eexists. split; [reflexivity|]. split; [|reflexivity]. intros ne. unfold out, to_node. cbn [fs_now fs_first fs_last]. rewrite map_app, !in_app_iff. cbn [map In]. intuition.
    - unfold with_node. rewrite HL. eexists. split; [reflexivity|]. split; [intros ne; unfold out at 1; cbn [fs_now fs_first fs_last]; apply OF|reflexivity].
  Qed.
  Definition of_kind (k : edge_type -> bool) (es : list redge) : list nat := map re_from (filter (fun e => k (re_type e)) es).
  Lemma fill_edges_ok : forall es s, (forall e, In e es -> ready s e) ->
    (use_lag = true -> NoDup (of_kind start_kind es) /\ NoDup (of_kind finish_kind es)) ->
    exists s', fill_edges use_lag nodes s es = Some s' /\
      (forall ne, In ne (out s') <-> In ne (out s) \/ exists e, In e es /\ piece e ne) /\
      (forall k, (forall e, In e es -> start_kind (re_type e) = true -> k <> (re_from e, w)) -> (forall e, In e es -> finish_kind (re_type e) = true -> k <> (w, re_from e)) -> fs_dict s' k = fs_dict s k).
  Proof.
    induction es as [|e es IH]; intros s Hr Hnd; cbn [fill_edges].
    - exists s. split; [reflexivity|]. split; [|reflexivity]. intros ne. split; [auto|]. intros [H|(e & [] & _)]. exact H.
    - destruct (fill_edge_ok s e (Hr e (or_introl eq_refl))) as (s1 & E1 & O1 & D1). rewrite E1.
      assert (Hne := ry_ne _ _ (Hr e (or_introl eq_refl))).
      destruct (IH s1) as (s2 & E2 & O2 & D2).
      + intros e' He'. destruct (Hr e' (or_intror He')) as [R1 R2 R3 R4 R5 R6]. constructor; auto.
        * intros U K. destruct (R5 U K) as (p & P1 & P2 & P3). exists p. split; [exact P1|]. split; [|exact P3]. rewrite D1; [exact P2| |intros _ [= H _]; congruence].
          intros K' [= H]. destruct (Hnd U) as [N _]. unfold of_kind in N. cbn [filter] in N. rewrite K' in N. cbn [map] in N. inversion N as [|? ? N1 N2]; subst. apply N1. rewrite <- H.
          apply in_map_iff. exists e'. split; [reflexivity|]. apply filter_In. auto.
        * intros U K. destruct (R6 U K) as (q & P1 & P2 & P3). exists q. split; [exact P1|]. split; [|exact P3]. rewrite D1; [exact P2|intros _ [= H _]; congruence|].
          intros K' [= H]. destruct (Hnd U) as [_ N]. unfold of_kind in N. cbn [filter] in N. rewrite K' in N. cbn [map] in N. inversion N as [|? ? N1 N2]; subst. apply N1. rewrite <- H.
          apply in_map_iff. exists e'. split; [reflexivity|]. apply filter_In. auto.
      + intros U. destruct (Hnd U) as [N1 N2]. unfold of_kind in *. cbn [filter] in N1, N2. split.
        * destruct (start_kind (re_type e)); [inversion N1; assumption|exact N1].
        * destruct (finish_kind (re_type e)); [inversion N2; assumption|exact N2].
      + exists s2. split; [exact E2|]. split.
        * intros ne. rewrite O2, O1. split.
          -- intros [[H|H]|(e' & H1 & H2)]; [auto|right; exists e; split; [left; reflexivity|exact H]|right; exists e'; split; [right; exact H1|exact H2]].
          -- intros [H|(e' & [<-|H1] & H2)]; [auto|left; right; exact H2|right; eauto].
        * intros k K1 K2. rewrite D2; [apply D1; [apply K1|apply K2]; left; reflexivity| |]; intros e' He'; [apply K1|apply K2]; right; exact He'.
  Qed.
End Fill.
