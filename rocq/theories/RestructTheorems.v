(** C29, C54: splitting works into stages and restructuring work graphs. *)
From Coq Require Import ZArith QArith Qround List Bool Sumbool Lia Lqa Permutation Sorted Setoid.
From Verif Require Import GraphModel ScheduleSpec Digraph RestructModel RestructSplit RestructProofs.
Import ListNotations.
Local Open Scope Q_scope.

(** ** Specification *)
(** [p] is the part of the earlier work that lag [lag] stands for. *)
Definition lag_part (lag volume p : Q) : Prop :=
  (0 < lag /\ lag <= volume /\ p == lag / volume) \/ (~ (0 < lag /\ lag <= volume) /\ p == 0).
(** Edge [e] makes it necessary to split work [w]; [b]: it enters the work. *)
Definition divides (use_lag : bool) (w : nat) (e : redge) (b : bool) : Prop :=
  if b then re_to e = w /\ (re_type e = FF \/ use_lag = true /\ re_type e = FFS)
  else re_from e = w /\ (re_type e = SS \/ use_lag = true /\ re_type e = FFS).
Definition starts_with (stages : list stage) (i : nid) : Prop := exists s l, stages = s :: l /\ st_id s = i.
Definition ends_with (stages : list stage) (i : nid) : Prop := exists s l, stages = l ++ [s] /\ st_id s = i.
(** [ne] joins two consecutive stages. *)
Definition stage_link (stages : list stage) (ne : nedge) : Prop :=
  exists l1 s s' l2, stages = l1 ++ s :: s' :: l2 /\ ne = NE (st_id s) (st_id s') 0 IFS.
(** The edge of the new graph by which [e] delays the start of the later work. *)
Inductive start_part (use_lag : bool) (volume : nat -> Q) (stages : nat -> list stage) (e : redge) : nedge -> Prop :=
| sp_fs a f : re_type e = FS -> ends_with (stages (re_from e)) a -> starts_with (stages (re_to e)) f ->
    start_part use_lag volume stages e (NE a f (inject_Z (Qceiling (re_lag e))) FS)
| sp_ifs a f : re_type e = IFS -> ends_with (stages (re_from e)) a -> starts_with (stages (re_to e)) f ->
    start_part use_lag volume stages e (NE a f 0 IFS)
| sp_ffs a f : use_lag = false -> re_type e = FFS -> ends_with (stages (re_from e)) a -> starts_with (stages (re_to e)) f ->
    start_part use_lag volume stages e (NE a f 0 FS)
| sp_ss a f : use_lag = false -> re_type e = SS -> starts_with (stages (re_from e)) a -> starts_with (stages (re_to e)) f ->
    start_part use_lag volume stages e (NE a f 0 FS)
| sp_lag a f p : use_lag = true -> re_type e = SS \/ re_type e = FFS -> lag_part (re_lag e) (volume (re_from e)) p ->
    done_after (stages (re_from e)) a p -> starts_with (stages (re_to e)) f ->
    start_part use_lag volume stages e (NE a f 0 FS).
(** ... delays its finish. *)
Inductive finish_part (use_lag : bool) (volume : nat -> Q) (stages : nat -> list stage) (e : redge) : nedge -> Prop :=
| fp_ff a z : use_lag = false -> re_type e = FF -> ends_with (stages (re_from e)) a -> ends_with (stages (re_to e)) z ->
    finish_part use_lag volume stages e (NE a z 0 FS)
| fp_lag a z p : use_lag = true -> re_type e = FF \/ re_type e = FFS -> lag_part (re_lag e) (volume (re_from e)) p ->
    ends_with (stages (re_from e)) a -> done_before (stages (re_to e)) z (1 - p) ->
    finish_part use_lag volume stages e (NE a z 0 FS).
(** A graph in the order of all of its edges; with lags, at most one edge of each kind
    between two works. *)
Record restructurable (g : rgraph) (use_lag : bool) : Prop := {
  rs_nodup : NoDup (rg_nodes g);
  rs_order : forall e, In e (rg_edges g) -> comes_before (rg_nodes g) (re_from e) (re_to e);
  rs_single : use_lag = true -> forall k, k = start_kind \/ k = finish_kind ->
    NoDup (map (fun e => (re_from e, re_to e)) (filter (fun e => k (re_type e)) (rg_edges g)));
  rs_amounts : forall w i j, (0 <= amount i j (rg_amounts g w))%Z
}.

(** ** C29 *)
(** The stages of a work: they are numbered in order, the last one keeps the id of the work,
    consecutive ones are joined inseparably; shares and amounts are not negative, the shares
    add up to the whole and each amount to that of the work. *)
Theorem split_conserves w amounts use_lag volume restructuring :
  (forall i j, (0 <= amount i j amounts)%Z) ->
  let stages := fst (split_work w amounts use_lag volume restructuring) in
  (exists k, map st_id stages = map (fun i => (w, Some i)) (seq 0 k) ++ [(w, None)] /\ (k = 0%nat <-> restructuring = [])) /\
  (forall ne, In ne (stage_links stages) <-> stage_link stages ne) /\
  (forall s, In s stages -> 0 <= st_share s /\ shape (st_amounts s) = shape amounts /\ forall i j, (0 <= amount i j (st_amounts s))%Z) /\
  total_share stages == 1 /\
  (forall i j, total_amount i j stages = amount i j amounts).
Proof.
  intros Hpos. cbv zeta. destruct (split_work_ok w amounts use_lag Hpos volume restructuring) as [S1 S2 S3 S4 _ _].
  set (stages := fst _) in *. split; [|split; [|auto]].
  - destruct S1 as (k & E & K). exists k. split; [exact E|]. rewrite K. split; [apply map_eq_nil|intros ->; reflexivity].
  - intros ne. clear. induction stages as [|a stages IH]; cbn [stage_links]; [split; [intros []|intros (l1 & s & s' & l2 & E & _); destruct l1; discriminate]|].
    destruct stages as [|b stages]; [split; [intros []|intros (l1 & s & s' & l2 & E & _); destruct l1 as [|? [|? ?]]; discriminate]|].
    split.
    + intros [<-|H]; [exists [], a, b, stages; auto|]. apply IH in H as (l1 & s & s' & l2 & E & H). exists (a :: l1), s, s', l2. rewrite E. auto.
    + intros (l1 & s & s' & l2 & E & H). destruct l1 as [|x l1]; cbn [app] in E; [injection E as <- <- <-; left; auto|injection E as <- E]. right. apply IH. exists l1, s, s', l2. auto.
Qed.
Print Assumptions split_conserves.

(** ** Graphs *)
Lemma in_pick (l : list redge) (p : edge_type -> bool) (b : bool) e c : In (e, c) (map (fun e => (e, b)) (filter (fun e => p (re_type e)) l)) <-> In e l /\ p (re_type e) = true /\ c = b.
Proof.
  rewrite in_map_iff. split.
  - intros (e' & [= <- <-] & H). apply filter_In in H as [H1 H2]. auto.
  - intros (H1 & H2 & ->). exists e. split; [reflexivity|]. apply filter_In. auto.
Qed.
Lemma restructuring_in g ul w e b : In (e, b) (restructuring_edges g ul w) <-> In e (rg_edges g) /\ divides ul w e b.
Proof.
  unfold restructuring_edges, divides. rewrite !in_app_iff, !in_pick.
  assert (A : In (e, b) (if ul then map (fun e => (e, true)) (filter (fun e => is_ffs (re_type e)) (filter (fun e => Nat.eqb (re_to e) w) (rg_edges g))) ++
      map (fun e => (e, false)) (filter (fun e => is_ffs (re_type e)) (filter (fun e => Nat.eqb (re_from e) w) (rg_edges g))) else [])
    <-> ul = true /\ In e (rg_edges g) /\ re_type e = FFS /\ ((b = true /\ re_to e = w) \/ (b = false /\ re_from e = w))).
  { destruct ul; [|split; [intros []|intros [H _]; discriminate]]. rewrite in_app_iff, !in_pick, !filter_In, !Nat.eqb_eq. destruct (re_type e); cbn [is_ffs]; intuition congruence. }
  rewrite A, !filter_In, !Nat.eqb_eq. destruct b, (re_type e); cbn [is_ss is_ff]; intuition congruence.
Qed.
Lemma lag_part_start volume e : lag_part (re_lag e) (volume (re_from e)) (proportion volume true e false).
Proof.
  unfold lag_part, proportion. cbn [andb]. destruct (Qle_bool (re_lag e) 0) eqn:C1; cbn [negb andb].
  - right. apply Qle_bool_iff in C1. split; [intros [H _]; lra|lra].
  - assert (0 < re_lag e) by (apply Qnot_le_lt; intros H; apply Qle_bool_iff in H; congruence).
    destruct (Qle_bool (re_lag e) (volume (re_from e))) eqn:C2.
    + apply Qle_bool_iff in C2. left. split; [assumption|]. split; [assumption|]. unfold Qdiv. ring.
    + right. split; [intros [_ H']; apply Qle_bool_iff in H'; congruence|lra].
Qed.
Lemma lag_part_finish volume e : 1 - proportion volume true e false == proportion volume true e true.
Proof.
  unfold proportion. cbn [andb]. destruct (negb (Qle_bool (re_lag e) 0) && Qle_bool (re_lag e) (volume (re_from e))); [unfold Qdiv; ring|ring].
Qed.
Lemma done_before_eq stages i p q : p == q -> done_before stages i p -> done_before stages i q.
Proof. intros E (l1 & s & l2 & H1 & H2 & H3). exists l1, s, l2. rewrite <- E. auto. Qed.
Lemma NoDup_map_filter {A B} (h : A -> B) (p : A -> bool) (l : list A) : NoDup (map h l) -> NoDup (map h (filter p l)).
Proof.
  induction l as [|a l IH]; cbn; [auto|]. intros H. inversion H as [|? ? N1 N2]; subst. destruct (p a); cbn; [|auto]. constructor; [|auto].
  intros Hin. apply N1. apply in_map_iff in Hin as (x & E & Hx). apply filter_In in Hx as [Hx _]. apply in_map_iff. eauto.
Qed.
Lemma filter_swap {A} (p q : A -> bool) (l : list A) : filter p (filter q l) = filter q (filter p l).
Proof. induction l as [|a l IH]; cbn; [reflexivity|]. destruct (q a) eqn:Q, (p a) eqn:P; cbn; rewrite ?Q, ?P, IH; reflexivity. Qed.
Lemma filter_or {A} (p q : A -> bool) (l : list A) : (forall a, p a = true -> q a = true -> False) -> Permutation (filter p l ++ filter q l) (filter (fun a => p a || q a) l).
Proof.
  intros D. induction l as [|a l IH]; cbn; [constructor|]. specialize (D a). destruct (p a), (q a); cbn; [exfalso; auto|constructor; exact IH| |exact IH].
  symmetry. apply Permutation_cons_app. symmetry. exact IH.
Qed.
Lemma nodup_map_inj {A B C} (h : A -> B) (h' : A -> C) (l : list A) : (forall a b, In a l -> In b l -> h' a = h' b -> h a = h b) -> NoDup (map h l) -> NoDup (map h' l).
Proof.
  induction l as [|a l IH]; intros Hi Hn; cbn in *; [constructor|]. inversion Hn as [|? ? N1 N2]; subst. constructor; [|apply IH; auto].
  intros H. apply in_map_iff in H as (b & E & Hb). apply N1. apply in_map_iff. exists b. split; [|exact Hb]. symmetry. apply Hi; auto.
Qed.
Lemma nodup_app_gen {A} (l1 l2 : list A) : NoDup l1 -> NoDup l2 -> (forall x, In x l1 -> In x l2 -> False) -> NoDup (l1 ++ l2).
Proof.
  induction l1 as [|x l1 IH]; intros H1 H2 Hd; cbn; [exact H2|]. inversion H1 as [|? ? N1 N2]; subst. constructor.
  - rewrite in_app_iff. intros [X|X]; [contradiction|]. apply (Hd x); [left; reflexivity|exact X].
  - apply IH; auto. intros y Y1 Y2. apply (Hd y); [right; exact Y1|exact Y2].
Qed.
Lemma if_true {A} (b : bool) (x y : A) : b = true -> (if b then x else y) = x.
Proof. intros ->. reflexivity. Qed.
Lemma if_false {A} (b : bool) (x y : A) : b = false -> (if b then x else y) = y.
Proof. intros ->. reflexivity. Qed.
Lemma comes_before_split (l pre post : list nat) u v : NoDup l -> l = pre ++ v :: post -> comes_before l u v -> In u pre.
Proof.
  intros Hnd E H. apply comes_before_pos in H as (H1 & _ & H3); [|exact Hnd]. subst l. apply in_app_iff in H1 as [H1|H1]; [exact H1|]. exfalso.
  assert (Hnv : ~ In v pre) by (apply NoDup_remove_2 in Hnd; intros Hv; apply Hnd, in_app_iff; auto).
  assert (P : comes_before (pre ++ v :: post) v u \/ u = v).
  { destruct H1 as [->|H1]; [auto|]. left. apply in_split in H1 as (r & t & ->). exists pre, r, t. reflexivity. }
  destruct P as [P| ->]; [|lia]. apply comes_before_pos in P; [lia|exact Hnd].
Qed.

Section Graph.
  Variables (g : rgraph) (use_lag : bool).
  Hypothesis H : restructurable g use_lag.
  Definition work_split (w : nat) := split_work w (rg_amounts g w) use_lag (rg_volume g) (restructuring_edges g use_lag w).
  Definition stages (w : nat) : list stage := fst (work_split w).
  Definition work_pes (w : nat) : list pedge := map (fun x => (proportion (rg_volume g) use_lag (fst x) (snd x), x)) (restructuring_edges g use_lag w).
  Notation ids l := (map st_id l).

  Lemma stages_ok w : split_ok w (rg_amounts g w) use_lag (work_pes w) (stages w) (snd (work_split w)).
  Proof. apply (split_work_ok w (rg_amounts g w) use_lag). apply (rs_amounts _ _ H). Qed.
  Lemma stages_last w : In (w, None) (ids (stages w)) /\ ends_with (stages w) (w, None).
  Proof.
    destruct (so_ids _ _ _ _ _ _ (stages_ok w)) as (k & E & _). split; [rewrite E; apply in_app_iff; right; left; reflexivity|].
    destruct (exists_last (l := stages w)) as (l & s & El); [intros E0; rewrite E0 in E; destruct (map _ (seq 0 k)); discriminate|].
    exists s, l. split; [exact El|]. rewrite El, map_app in E. cbn [map] in E. apply app_inj_tail in E as [_ E]. exact E.
  Qed.
  Lemma stages_fst w i : In i (ids (stages w)) -> fst i = w.
  Proof.
    destruct (so_ids _ _ _ _ _ _ (stages_ok w)) as (k & E & _). rewrite E, in_app_iff, in_map_iff. intros [(j & <- & _)|[<-|[]]]; reflexivity.
  Qed.
  Lemma stages_nodup w : NoDup (ids (stages w)).
  Proof.
    destruct (so_ids _ _ _ _ _ _ (stages_ok w)) as (k & E & _). rewrite E. apply nodup_app_gen.
    - apply (nodup_map_inj (fun i => i)); [intros a b _ _ [= ->]; reflexivity|]. rewrite map_id. apply seq_NoDup.
    - repeat constructor. intros [].
    - intros x H1 [<-|[]]. apply in_map_iff in H1 as (i & [=] & _).
  Qed.
  Lemma stages_first w : starts_with (stages w) (if match restructuring_edges g use_lag w with [] => true | _ => false end then (w, None) else (w, Some 0%nat)).
  Proof.
    destruct (so_ids _ _ _ _ _ _ (stages_ok w)) as (k & E & K). unfold work_pes in K.
    destruct (stages w) as [|s l]; [destruct (map _ (seq 0 k)); discriminate|]. exists s, l. split; [reflexivity|].
    destruct (restructuring_edges g use_lag w) as [|x r].
    - assert (k = 0%nat) by (apply K; reflexivity). subst k. cbn in E. injection E; auto.
    - destruct k as [|k]; [assert (N : map (fun x => (proportion (rg_volume g) use_lag (fst x) (snd x), x)) (x :: r) = []) by (apply K; reflexivity); discriminate|].
      cbn in E. injection E; auto.
  Qed.
  Lemma starts_with_unique l i j : starts_with l i -> starts_with l j -> i = j.
  Proof. intros (s & r & -> & <-) (s' & r' & E & <-). injection E as <- _. reflexivity. Qed.
  Lemma done_after_in l i p : done_after l i p -> In i (ids l).
  Proof. intros (l1 & s & l2 & -> & <- & _). rewrite map_app. apply in_app_iff. right. left. reflexivity. Qed.
  Lemma done_before_in l i p : done_before l i p -> In i (ids l).
  Proof. intros (l1 & s & l2 & -> & <- & _). rewrite map_app. apply in_app_iff. right. left. reflexivity. Qed.

  (** ** The assignments made when a work is split *)
  Lemma keys_nodup w : use_lag = true -> NoDup (map fst (snd (work_split w))).
  Proof.
    intros U. destruct (so_match _ _ _ _ _ _ (stages_ok w) U) as (pes' & P & F).
    assert (E : map fst (snd (work_split w)) = map (fun x : pedge => match_key (fst (snd x)) (snd (snd x))) pes').
    { clear - F. induction F as [|x m l l' [Hx _] F IH]; cbn; [reflexivity|]. f_equal; [exact Hx|exact IH]. }
    rewrite E. eapply Permutation_NoDup; [apply Permutation_map; exact P|]. unfold work_pes. rewrite map_map. cbn [fst snd].
    unfold restructuring_edges. rewrite U.
    set (from := filter (fun e => Nat.eqb (re_from e) w) (rg_edges g)). set (to := filter (fun e => Nat.eqb (re_to e) w) (rg_edges g)).
    set (pick := fun (l : list redge) (k : edge_type -> bool) (b : bool) => map (fun e => (e, b)) (filter (fun e => k (re_type e)) l)).
    change (NoDup (map (fun x : redge * bool => match_key (fst x) (snd x)) (pick from is_ss false ++ pick to is_ff true ++ pick to is_ffs true ++ pick from is_ffs false))).
    assert (PP : Permutation (pick from is_ss false ++ pick to is_ff true ++ pick to is_ffs true ++ pick from is_ffs false) (pick from start_kind false ++ pick to finish_kind true)).
    { assert (J : forall l k1 k2 k b, (forall t, k1 t = true -> k2 t = true -> False) -> (forall t, k t = k1 t || k2 t) -> Permutation (pick l k1 b ++ pick l k2 b) (pick l k b)).
      { intros l k1 k2 k b D O. unfold pick. rewrite <- map_app. apply Permutation_map. rewrite (filter_ext (fun e => k (re_type e)) (fun e => k1 (re_type e) || k2 (re_type e))) by (intros; apply O).
        apply (filter_or (fun e => k1 (re_type e)) (fun e => k2 (re_type e))). intros e. apply D. }
      rewrite <- (J from is_ss is_ffs start_kind false); [|intros [] ; discriminate|intros []; reflexivity].
      rewrite <- (J to is_ff is_ffs finish_kind true); [|intros [] ; discriminate|intros []; reflexivity].
      rewrite <- app_assoc. apply Permutation_app_head. rewrite app_assoc. apply Permutation_app_comm. }
    eapply Permutation_NoDup; [apply Permutation_map; symmetry; exact PP|]. rewrite map_app. unfold pick. rewrite !map_map. cbn [fst snd match_key].
    apply nodup_app_gen.
    - apply (nodup_map_inj (fun e => (re_from e, re_to e))); [intros a b _ _ [= -> ->]; reflexivity|]. unfold from. rewrite filter_swap. apply NoDup_map_filter. apply (rs_single _ _ H U). auto.
    - apply (nodup_map_inj (fun e => (re_from e, re_to e))); [intros a b _ _ [= -> ->]; reflexivity|]. unfold to. rewrite filter_swap. apply NoDup_map_filter. apply (rs_single _ _ H U). auto.
    - intros x X1 X2. apply in_map_iff in X1 as (e1 & <- & X1). apply in_map_iff in X2 as (e2 & [= Y1 Y2] & X2). apply filter_In in X1 as [X1 _], X2 as [X2 _].
      unfold from in X1. unfold to in X2. apply filter_In in X1 as [X1 E1], X2 as [X2 E2]. apply Nat.eqb_eq in E1, E2.
      assert (C1 := rs_order _ _ H e1 X1). assert (C2 := rs_order _ _ H e2 X2). rewrite E1 in C1. rewrite E2, Y2 in C2. apply (comes_before_asym _ _ _ (rs_nodup _ _ H) C1 C2).
  Qed.
  Lemma keys_fst w k : In k (map fst (snd (work_split w))) -> use_lag = true -> fst k = w.
  Proof.
    intros Hk U. destruct (so_match _ _ _ _ _ _ (stages_ok w) U) as (pes' & P & F). apply in_map_iff in Hk as (m & <- & Hm).
    assert (X : exists x, In x pes' /\ good_match (stages w) x m).
    { clear - F Hm. induction F as [|x m' l l' Hx F IH]; [destruct Hm|]. destruct Hm as [->|Hm]; [exists x; split; [left; reflexivity|exact Hx]|]. destruct (IH Hm) as (y & Y1 & Y2). exists y. split; [right; exact Y1|exact Y2]. }
    destruct X as (x & X1 & X2 & _). etransitivity; [apply (f_equal fst X2)|]. apply (Permutation_in _ (Permutation_sym P)) in X1. unfold work_pes in X1. apply in_map_iff in X1 as ([e b] & <- & X1). cbn [fst snd].
    apply restructuring_in in X1 as [_ D]. unfold divides in D. destruct b; apply D.
  Qed.
  Lemma split_matches w e b d : use_lag = true -> In e (rg_edges g) -> divides use_lag w e b ->
    exists v, fold_left d_set (snd (work_split w)) d (match_key e b) = Some v /\
      (if b then done_before (stages w) v (proportion (rg_volume g) true e true) else done_after (stages w) v (proportion (rg_volume g) true e false)).
  Proof.
    intros U He D. destruct (so_match _ _ _ _ _ _ (stages_ok w) U) as (pes' & P & F).
    assert (X : In (proportion (rg_volume g) use_lag e b, (e, b)) pes').
    { apply (Permutation_in _ P). unfold work_pes. apply in_map_iff. exists (e, b). split; [reflexivity|]. apply restructuring_in. auto. }
    assert (Y : exists m, In m (snd (work_split w)) /\ good_match (stages w) (proportion (rg_volume g) use_lag e b, (e, b)) m).
    { clear - F X. induction F as [|x m' l l' Hx F IH]; [destruct X|]. destruct X as [->|X]; [exists m'; split; [left; reflexivity|exact Hx]|]. destruct (IH X) as (y & Y1 & Y2). exists y. split; [right; exact Y1|exact Y2]. }
    destruct Y as ([k v] & Y1 & Y2 & Y3). cbn [fst snd] in *. exists v. subst k. split; [apply (proj1 (d_sets_spec _ d (keys_nodup w U))), Y1|].
    rewrite U in Y3. destruct b; exact Y3.
  Qed.

  (** ** Invariant *)
  Definition part (e : redge) (ne : nedge) : Prop := start_part use_lag (rg_volume g) stages e ne \/ finish_part use_lag (rg_volume g) stages e ne.
  Definition covered (es : list nedge) (e : redge) : Prop :=
    (re_type e <> FF -> exists ne, In ne es /\ start_part use_lag (rg_volume g) stages e ne) /\
    (re_type e = FF \/ use_lag = true /\ re_type e = FFS -> exists ne, In ne es /\ finish_part use_lag (rg_volume g) stages e ne).
  Record ginv (pre post : list nat) (s : gstate) : Prop := {
    gi_nodes : gs_nodes s = concat (map stages pre);
    gi_dict : use_lag = true -> forall e, In e (rg_edges g) -> start_kind (re_type e) = true -> In (re_from e) pre -> In (re_to e) post ->
      exists p, gs_dict s (re_from e, re_to e) = Some p /\ done_after (stages (re_from e)) p (proportion (rg_volume g) true e false);
    gi_sound : forall ne, In ne (gs_edges s) -> (exists w, In w pre /\ In ne (stage_links (stages w))) \/ (exists e, In e (rg_edges g) /\ part e ne);
    gi_complete : forall e, In e (rg_edges g) -> In (re_to e) pre -> covered (gs_edges s) e;
    gi_links : forall w ne, In w pre -> In ne (stage_links (stages w)) -> In ne (gs_edges s);
    gi_order : forall ne, In ne (gs_edges s) -> comes_before (ids (gs_nodes s)) (ne_from ne) (ne_to ne)
  }.
  Lemma links_order : forall l ne, In ne (stage_links l) -> comes_before (ids l) (ne_from ne) (ne_to ne).
  Proof.
    induction l as [|a l IH]; intros ne Hn; cbn [stage_links] in Hn; [destruct Hn|]. destruct l as [|b l]; [destruct Hn|].
    destruct Hn as [<-|Hn]; [exists [], [], (ids l); reflexivity|]. specialize (IH ne Hn). change (ids (a :: b :: l)) with ([st_id a] ++ ids (b :: l)). apply comes_before_app_r, IH.
  Qed.
  Lemma in_nodes pre u i : In u pre -> In i (ids (stages u)) -> In i (ids (concat (map stages pre))).
  Proof.
    intros Hu Hi. rewrite concat_map, map_map. apply in_concat. exists (ids (stages u)). split; [|exact Hi]. apply in_map_iff. exists u. auto.
  Qed.
  Lemma nodes_in pre i : In i (ids (concat (map stages pre))) -> In (fst i) pre /\ In i (ids (stages (fst i))).
  Proof.
    rewrite concat_map, map_map. intros Hi. apply in_concat in Hi as (l & Hl & Hi). apply in_map_iff in Hl as (u & <- & Hu). rewrite (stages_fst u i Hi). auto.
  Qed.
  Lemma first_stage_ok pre w : starts_with (stages w) (first_stage (concat (map stages pre) ++ stages w) w) .
  Proof.
    assert (S1 := stages_first w). unfold first_stage. destruct (has_node _ _) eqn:E.
    - apply has_node_in in E. rewrite map_app, in_app_iff in E.
      assert (E' : In (w, Some 0%nat) (ids (stages w))) by (destruct E as [E|E]; [apply nodes_in in E; apply E|exact E]).
      destruct (restructuring_edges g use_lag w) eqn:R; [|exact S1]. exfalso.
      destruct (so_ids _ _ _ _ _ _ (stages_ok w)) as (k & Ek & K). unfold work_pes in K. rewrite R in K. assert (k = 0%nat) by (apply K; reflexivity). subst k. rewrite Ek in E'. destruct E' as [[=]|[]].
    - destruct (restructuring_edges g use_lag w) eqn:R; [exact S1|]. exfalso. destruct S1 as (s0 & l0 & Es & Ei). assert (X : has_node (concat (map stages pre) ++ stages w) (w, Some 0%nat) = true).
      { apply has_node_in. rewrite map_app, in_app_iff. right. rewrite Es. left. exact Ei. } congruence.
  Qed.

  Lemma restructure_step pre w post s : rg_nodes g = pre ++ w :: post -> ginv pre (w :: post) s ->
    exists s', restructure_node g use_lag s w = Some s' /\ ginv (pre ++ [w]) post s'.
  Proof.
    intros Eo I. assert (Hnd := rs_nodup _ _ H).
    assert (Hw : ~ In w pre /\ ~ In w post) by (rewrite Eo in Hnd; apply NoDup_remove_2 in Hnd; rewrite in_app_iff in Hnd; tauto).
    assert (Hdis : forall x, In x pre -> In x post -> False).
    { intros x X1 X2. rewrite Eo in Hnd. clear - X1 X2 Hnd. induction pre as [|y pre IH]; [destruct X1|]. cbn in Hnd. inversion Hnd as [|? ? N1 N2]; subst. destruct X1 as [->|X1]; [|auto]. apply N1, in_app_iff. right. right. exact X2. }
    assert (Hfrom : forall e, In e (rg_edges g) -> re_to e = w -> In (re_from e) pre).
    { intros e He Et. assert (C := rs_order _ _ H e He). rewrite Et in C. apply (comes_before_split _ _ _ _ _ Hnd Eo C). }
    assert (Hto : forall e, In e (rg_edges g) -> re_from e = w -> In (re_to e) post).
    { intros e He Ef. assert (C := rs_order _ _ H e He). rewrite Ef in C. assert (C' := comes_before_in _ _ _ C). rewrite Eo in C'. destruct C' as [_ C']. apply in_app_iff in C' as [C'|[C'|C']]; [|exfalso; rewrite <- C' in C; apply (comes_before_irrefl _ _ Hnd C)|exact C'].
      exfalso. assert (C2 : comes_before (rg_nodes g) (re_to e) w) by (rewrite Eo; apply comes_before_app_lr; [exact C'|left; reflexivity]). apply (comes_before_asym _ _ _ Hnd C C2). }
    unfold restructure_node. fold (work_split w). destruct (work_split w) as [stg ms] eqn:Ew.
    assert (Estg : stages w = stg) by (unfold stages; rewrite Ew; reflexivity).
    set (D1 := fold_left d_set ms (gs_dict s)).
    unfold fill_parents. cbn [gs_nodes gs_dict gs_edges]. set (nodes := gs_nodes s ++ stg).
    assert (En : nodes = concat (map stages pre) ++ stages w) by (unfold nodes; rewrite (gi_nodes _ _ _ I), Estg; reflexivity).
    assert (En' : nodes = concat (map stages (pre ++ [w]))) by (rewrite En, map_app, concat_app; cbn [map concat]; rewrite app_nil_r; reflexivity).
    set (f := first_stage nodes w). assert (Hf : starts_with (stages w) f) by (unfold f; rewrite En; apply first_stage_ok).
    assert (HD : forall k, fst k <> w -> D1 k = gs_dict s k).
    { intros k Hk. unfold D1. destruct (sumbool_of_bool use_lag) as [U|U].
      - assert (N := keys_nodup w U). rewrite Ew in N. cbn [snd] in N. apply (proj2 (d_sets_spec ms (gs_dict s) N)). intros Hin. apply Hk. apply (keys_fst w k); [rewrite Ew; exact Hin|exact U].
      - assert (N := so_nomatch _ _ _ _ _ _ (stages_ok w) U). rewrite Ew in N. cbn [snd] in N. subst ms. reflexivity. }
    assert (HM : forall e b, use_lag = true -> In e (rg_edges g) -> divides use_lag w e b -> exists v, D1 (match_key e b) = Some v /\
      (if b then done_before (stages w) v (proportion (rg_volume g) true e true) else done_after (stages w) v (proportion (rg_volume g) true e false))).
    { intros e b U He D. destruct (split_matches w e b (gs_dict s) U He D) as (v & V1 & V2). rewrite Ew in V1. cbn [snd] in V1. exists v. auto. }
    set (es := filter (fun e => Nat.eqb (re_to e) w) (rg_edges g)).
    assert (Hes : forall e, In e es <-> In e (rg_edges g) /\ re_to e = w) by (intros e; unfold es; rewrite filter_In, Nat.eqb_eq; reflexivity).
    destruct (fill_edges_ok use_lag nodes w f D1 es (FS_ D1 [] [] [])) as (s' & F1 & F2 & F3).
    { intros e He. apply Hes in He as [He Et]. assert (Hfr := Hfrom e He Et). constructor.
      - exact Et.
      - intros E. rewrite E in Hfr. tauto.
      - rewrite En, map_app, in_app_iff. left. apply (in_nodes pre (re_from e) _ Hfr). apply stages_last.
      - intros U T. rewrite En, map_app, in_app_iff. left. apply (in_nodes pre (re_from e) _ Hfr).
        assert (S1 := stages_first (re_from e)). assert (R : In (e, false) (restructuring_edges g use_lag (re_from e))) by (apply restructuring_in; split; [exact He|]; split; [reflexivity|auto]).
        destruct (restructuring_edges g use_lag (re_from e)); [destruct R|]. destruct S1 as (s0 & l9 & E1 & E2). rewrite E1. left. exact E2.
      - intros U K. destruct (gi_dict _ _ _ I U e He K Hfr) as (p & P1 & P2); [rewrite Et; left; reflexivity|]. rewrite Et in P1. exists p. cbn [fs_dict].
        assert (Q : D1 (re_from e, w) = Some p) by (rewrite HD; [exact P1|cbn [fst]; intros E; rewrite E in Hfr; tauto]). split; [exact Q|]. split; [exact Q|].
        rewrite En, map_app, in_app_iff. left. apply (in_nodes pre (re_from e) _ Hfr). apply (done_after_in _ _ _ P2).
      - intros U K. destruct (HM e true U He) as (v & V1 & V2).
        { split; [exact Et|]. destruct (re_type e); try discriminate; auto. }
        cbn [match_key] in V1. rewrite Et in V1. exists v. cbn [fs_dict]. split; [exact V1|]. split; [exact V1|]. rewrite En, map_app, in_app_iff. right. apply (done_before_in _ _ _ V2). }
    { intros U. assert (X : forall k, k = start_kind \/ k = finish_kind -> NoDup (of_kind k es)).
      { intros k Hk. unfold of_kind, es. rewrite filter_swap. apply (nodup_map_inj (fun e => (re_from e, re_to e))).
        - intros a b Ha Hb E. apply filter_In in Ha as [_ Ha], Hb as [_ Hb]. apply Nat.eqb_eq in Ha, Hb. congruence.
        - apply NoDup_map_filter. apply (rs_single _ _ H U k Hk). }
      split; apply X; auto. }
    rewrite F1. eexists. split; [reflexivity|].
    assert (Facts : forall e, In e es -> In e (rg_edges g) /\ re_to e = w /\ In (re_from e) pre /\ ends_with (stages (re_from e)) (re_from e, None) /\
      starts_with (stages (re_to e)) f /\ In (re_from e, None) (ids (concat (map stages pre)))).
    { intros e He. apply Hes in He as [He Et]. assert (Hfr := Hfrom e He Et). destruct (stages_last (re_from e)) as [L1 L2]. rewrite Et. assert (L3 := in_nodes pre _ _ Hfr L1). auto 10. }
    assert (IF : In f (ids (stages w))) by (destruct Hf as (s0 & l9 & E1 & E2); rewrite E1; left; exact E2).
    assert (ST : forall e, In e es -> use_lag = true -> start_kind (re_type e) = true -> exists p, D1 (re_from e, w) = Some p /\
      start_part use_lag (rg_volume g) stages e (NE p f 0 FS) /\ In p (ids (concat (map stages pre)))).
    { intros e Hin U K. destruct (Facts e Hin) as (He & Et & Hfr & L2 & Hf' & IL). destruct (gi_dict _ _ _ I U e He K Hfr) as (p & P1 & P2); [rewrite Et; left; reflexivity|]. rewrite Et in P1.
      exists p. split; [rewrite HD; [exact P1|cbn [fst]; intros E; rewrite E in Hfr; tauto]|]. split.
      - apply sp_lag with (p := proportion (rg_volume g) true e false); auto; [destruct (re_type e); try discriminate; auto|apply lag_part_start].
      - apply (in_nodes pre _ _ Hfr), (done_after_in _ _ _ P2). }
    assert (FI : forall e, In e es -> use_lag = true -> finish_kind (re_type e) = true -> exists q, D1 (w, re_from e) = Some q /\
      finish_part use_lag (rg_volume g) stages e (NE (re_from e, None) q 0 FS) /\ In q (ids (stages w))).
    { intros e Hin U K. destruct (Facts e Hin) as (He & Et & Hfr & L2 & Hf' & IL).
      destruct (HM e true U He) as (v & V1 & V2); [split; [exact Et|]; destruct (re_type e); try discriminate; auto|]. cbn [match_key] in V1. rewrite Et in V1. exists v. split; [exact V1|]. split.
      - apply fp_lag with (p := proportion (rg_volume g) true e false); auto; [destruct (re_type e); try discriminate; auto|apply lag_part_start|]. rewrite Et. apply (done_before_eq _ _ (proportion (rg_volume g) true e true)); [symmetry; apply lag_part_finish|exact V2].
      - apply (done_before_in _ _ _ V2). }
    assert (SS0 : forall e, In e es -> use_lag = false -> re_type e = SS -> starts_with (stages (re_from e)) (re_from e, Some 0%nat)).
    { intros e Hin U T. destruct (Facts e Hin) as (He & _). assert (S1 := stages_first (re_from e)).
      assert (R : In (e, false) (restructuring_edges g use_lag (re_from e))) by (apply restructuring_in; split; [exact He|]; split; [reflexivity|auto]).
      destruct (restructuring_edges g use_lag (re_from e)); [destruct R|exact S1]. }
    (* the pieces are parts *)
    assert (HP : forall e ne, In e es -> piece use_lag w f D1 e ne -> part e ne /\ In (ne_from ne) (ids (concat (map stages pre))) /\ In (ne_to ne) (ids (stages w))).
    { intros e ne Hin Hp. destruct (Facts e Hin) as (He & Et & Hfr & L2 & Hf' & IL). specialize (ST e Hin). specialize (FI e Hin). specialize (SS0 e Hin).
      unfold piece in Hp. unfold part. destruct (re_type e) eqn:T; cbn [start_kind finish_kind] in *.
      - subst ne. split; [left; apply sp_ifs; auto|]. auto.
      - destruct (sumbool_of_bool use_lag) as [U|U]; [rewrite (if_true use_lag _ _ U) in Hp|rewrite (if_false use_lag _ _ U) in Hp].
        + destruct Hp as [(p & P1 & ->)|(q & Q1 & ->)].
          * destruct (ST U eq_refl) as (p' & Y1 & Y2 & Y3). assert (p' = p) by congruence. subst p'. auto.
          * destruct (FI U eq_refl) as (q' & Y1 & Y2 & Y3). assert (q' = q) by congruence. subst q'. auto.
        + subst ne. split; [left; apply sp_ffs; auto|]. auto.
      - destruct (sumbool_of_bool use_lag) as [U|U]; [rewrite (if_true use_lag _ _ U) in Hp|rewrite (if_false use_lag _ _ U) in Hp].
        + destruct Hp as (p & P1 & ->). destruct (ST U eq_refl) as (p' & Y1 & Y2 & Y3). assert (p' = p) by congruence. subst p'. auto.
        + subst ne. assert (S1 := SS0 U eq_refl). split; [left; apply sp_ss; auto|]. split; [|exact IF].
          apply (in_nodes pre _ _ Hfr). destruct S1 as (s0 & l9 & E1 & E2). cbn [ne_from]. rewrite E1. left. exact E2.
      - destruct (sumbool_of_bool use_lag) as [U|U]; [rewrite (if_true use_lag _ _ U) in Hp|rewrite (if_false use_lag _ _ U) in Hp].
        + destruct Hp as (q & Q1 & ->). destruct (FI U eq_refl) as (q' & Y1 & Y2 & Y3). assert (q' = q) by congruence. subst q'. auto.
        + subst ne. split; [right; apply fp_ff; auto; rewrite Et; apply stages_last|]. split; [exact IL|apply stages_last].
      - subst ne. split; [left; apply sp_fs; auto|]. auto. }
    assert (HO : forall ne, In ne (gs_edges s ++ stage_links stg) \/ (exists e, In e es /\ piece use_lag w f D1 e ne) <->
      In ne (gs_edges (GS_ nodes (fs_dict s') ((gs_edges s ++ stage_links stg) ++ fs_now s' ++ to_node f (fs_first s') ++ to_node (w, None) (fs_last s'))))).
    { intros ne. cbn [gs_edges]. rewrite (in_app_iff (gs_edges s ++ stage_links stg)). fold (out w f s'). rewrite F2. unfold out. cbn [fs_now fs_first fs_last to_node map app In]. tauto. }
    constructor.
    - exact En'.
    - intros U e He K X1 X2. cbn [gs_dict]. rewrite F3.
      + cbn [fs_dict]. apply in_app_iff in X1 as [X1|[X1|[]]].
        * destruct (gi_dict _ _ _ I U e He K X1) as (p & P1 & P2); [right; exact X2|]. exists p. split; [|exact P2]. rewrite HD; [exact P1|]. cbn [fst]. intros E. rewrite E in X1. tauto.
        * destruct (HM e false U He) as (v & V1 & V2); [split; [auto|]; destruct (re_type e); try discriminate; auto|]. exists v. rewrite X1 in V2. auto.
      + intros e' He' _ [= _ E]. rewrite E in X2. tauto.
      + intros e' He' _ [= E1 E2]. apply Hes in He' as [He' Et']. rewrite E2 in X2. apply (Hdis _ (Hfrom e' He' Et') X2).
    - intros ne Hne. apply HO in Hne as [Hne|(e & He & Hp)].
      + apply in_app_iff in Hne as [Hne|Hne].
        * destruct (gi_sound _ _ _ I ne Hne) as [(x & X1 & X2)|X]; [left; exists x; split; [apply in_app_iff; auto|exact X2]|right; exact X].
        * left. exists w. rewrite Estg. split; [apply in_app_iff; right; left; reflexivity|exact Hne].
      + right. exists e. split; [apply Hes, He|]. apply (HP e ne He Hp).
    - intros e He X. apply in_app_iff in X as [X|[X|[]]].
      + destruct (gi_complete _ _ _ I e He X) as [C1 C2]. split.
        * intros T. destruct (C1 T) as (ne & N1 & N2). exists ne. split; [apply HO; left; apply in_app_iff; auto|exact N2].
        * intros T. destruct (C2 T) as (ne & N1 & N2). exists ne. split; [apply HO; left; apply in_app_iff; auto|exact N2].
      + assert (Et : re_to e = w) by auto. assert (Hin : In e es) by (apply Hes; auto). assert (Hfr := Hfrom e He Et).
        assert (Found : forall ne, piece use_lag w f D1 e ne -> In ne (gs_edges (GS_ nodes (fs_dict s') ((gs_edges s ++ stage_links stg) ++ fs_now s' ++ to_node f (fs_first s') ++ to_node (w, None) (fs_last s'))))).
        { intros ne Hp. apply HO. right. eauto. }
        destruct (Facts e Hin) as (_ & _ & _ & L2 & Hf' & IL). specialize (ST e Hin). specialize (FI e Hin). specialize (SS0 e Hin). split.
        * intros T. assert (Y : exists ne, piece use_lag w f D1 e ne /\ start_part use_lag (rg_volume g) stages e ne).
          { unfold piece. destruct (re_type e) eqn:Ty; cbn [start_kind] in *; try congruence.
            - eexists. split; [reflexivity|]. apply sp_ifs; auto.
            - destruct (sumbool_of_bool use_lag) as [U|U].
              + destruct (ST U eq_refl) as (p & P & P' & _). exists (NE p f 0 FS). rewrite (if_true use_lag _ _ U). split; [left; eauto|exact P'].
              + exists (NE (re_from e, None) f 0 FS). rewrite (if_false use_lag _ _ U). split; [reflexivity|]. apply sp_ffs; auto.
            - destruct (sumbool_of_bool use_lag) as [U|U].
              + destruct (ST U eq_refl) as (p & P & P' & _). exists (NE p f 0 FS). rewrite (if_true use_lag _ _ U). split; [eauto|exact P'].
              + exists (NE (re_from e, Some 0%nat) f 0 FS). rewrite (if_false use_lag _ _ U). split; [reflexivity|]. apply sp_ss; auto.
            - eexists. split; [reflexivity|]. apply sp_fs; auto. }
          destruct Y as (ne & Y1 & Y2). exists ne. split; [apply Found, Y1|exact Y2].
        * intros T. assert (Y : exists ne, piece use_lag w f D1 e ne /\ finish_part use_lag (rg_volume g) stages e ne).
          { unfold piece. destruct T as [T|[U T]]; rewrite T in *; cbn [finish_kind] in *.
            - destruct (sumbool_of_bool use_lag) as [U|U].
              + destruct (FI U eq_refl) as (q & Q & Q' & _). exists (NE (re_from e, None) q 0 FS). rewrite (if_true use_lag _ _ U). split; [eauto|exact Q'].
              + exists (NE (re_from e, None) (w, None) 0 FS). rewrite (if_false use_lag _ _ U). split; [reflexivity|]. apply fp_ff; auto. rewrite Et. apply stages_last.
            - destruct (FI U eq_refl) as (q & Q & Q' & _). exists (NE (re_from e, None) q 0 FS). rewrite (if_true use_lag _ _ U). split; [right; eauto|exact Q']. }
          destruct Y as (ne & Y1 & Y2). exists ne. split; [apply Found, Y1|exact Y2].
    - intros x ne X1 X2. apply HO. left. apply in_app_iff. apply in_app_iff in X1 as [X1|[<-|[]]]; [left; apply (gi_links _ _ _ I x ne X1 X2)|right; rewrite <- Estg; exact X2].
    - intros ne Hne. cbn [gs_nodes]. apply HO in Hne as [Hne|(e & He & Hp)].
      + apply in_app_iff in Hne as [Hne|Hne].
        * unfold nodes. rewrite map_app. apply comes_before_app_l. apply (gi_order _ _ _ I ne Hne).
        * unfold nodes. rewrite map_app. apply comes_before_app_r, links_order, Hne.
      + destruct (HP e ne He Hp) as (_ & P1 & P2). rewrite En, map_app. apply comes_before_app_lr; assumption.
  Qed.
End Graph.

(** ** C54 *)
Lemma restructure_all g use_lag : restructurable g use_lag -> forall post pre s, rg_nodes g = pre ++ post -> ginv g use_lag pre post s ->
  exists s', restructure_nodes g use_lag s post = Some s' /\ ginv g use_lag (rg_nodes g) [] s'.
Proof.
  intros H. induction post as [|w post IH]; intros pre s E I; cbn [restructure_nodes].
  - rewrite app_nil_r in E. rewrite E. eauto.
  - destruct (restructure_step g use_lag H pre w post s E I) as (s1 & E1 & I1). rewrite E1. apply (IH (pre ++ [w])); [rewrite <- app_assoc; exact E|exact I1].
Qed.
Lemma start_part_type ul vol st e ne : start_part ul vol st e ne -> ne_type ne = FS \/ ne_type ne = IFS.
Proof. intros []; cbn; auto. Qed.
Lemma finish_part_type ul vol st e ne : finish_part ul vol st e ne -> ne_type ne = FS.
Proof. intros []; reflexivity. Qed.
Lemma links_spec w amounts ul vol restr ne : (forall i j, (0 <= amount i j amounts)%Z) ->
  (In ne (stage_links (fst (split_work w amounts ul vol restr))) <-> stage_link (fst (split_work w amounts ul vol restr)) ne).
Proof. intros Hp. apply (split_conserves w amounts ul vol restr Hp). Qed.

(** Restructuring succeeds. Every work becomes its stages (one if no edge divides it), in the
    order of the works. Only Finish-Start and inseparable edges remain, and the new order
    respects all of them. The edges are exactly those between consecutive stages and those
    that stand for the original edges, each of which is represented. *)
Theorem restructure_correct g use_lag : restructurable g use_lag ->
  exists stages edges, restructure g use_lag = Some (concat (map stages (rg_nodes g)), edges) /\
    (forall w, exists k, map st_id (stages w) = map (fun i => (w, Some i)) (seq 0 k) ++ [(w, None)] /\
       (k = 0%nat <-> forall e b, In e (rg_edges g) -> ~ divides use_lag w e b)) /\
    (forall w s, In s (stages w) -> 0 <= st_share s /\ shape (st_amounts s) = shape (rg_amounts g w) /\ forall i j, (0 <= amount i j (st_amounts s))%Z) /\
    (forall w, total_share (stages w) == 1 /\ forall i j, total_amount i j (stages w) = amount i j (rg_amounts g w)) /\
    NoDup (map st_id (concat (map stages (rg_nodes g)))) /\
    (forall ne, In ne edges -> (ne_type ne = FS \/ ne_type ne = IFS) /\ comes_before (map st_id (concat (map stages (rg_nodes g)))) (ne_from ne) (ne_to ne)) /\
    (forall ne, In ne edges -> (exists w, In w (rg_nodes g) /\ stage_link (stages w) ne) \/
       exists e, In e (rg_edges g) /\ (start_part use_lag (rg_volume g) stages e ne \/ finish_part use_lag (rg_volume g) stages e ne)) /\
    (forall w ne, In w (rg_nodes g) -> stage_link (stages w) ne -> In ne edges) /\
    (forall e, In e (rg_edges g) ->
       (re_type e <> FF -> exists ne, In ne edges /\ start_part use_lag (rg_volume g) stages e ne) /\
       (re_type e = FF \/ use_lag = true /\ re_type e = FFS -> exists ne, In ne edges /\ finish_part use_lag (rg_volume g) stages e ne)).
Proof.
  intros H. destruct (restructure_all g use_lag H (rg_nodes g) [] (GS_ [] (fun _ => None) [])) as (s & E & I).
  { reflexivity. }
  { constructor; cbn [gs_nodes gs_dict gs_edges map concat]; cbn [In]; try reflexivity; intros; contradiction. }
  exists (stages g use_lag), (gs_edges s). unfold restructure. rewrite E, (gi_nodes _ _ _ _ _ I).
  assert (SC := fun w => split_conserves w (rg_amounts g w) use_lag (rg_volume g) (restructuring_edges g use_lag w) (rs_amounts _ _ H w)).
  cbv zeta in SC. split; [reflexivity|]. split; [|split; [|split; [|split; [|split; [|split; [|split]]]]]].
  - intros w. destruct (SC w) as [(k & E1 & E2) _]. exists k. split; [exact E1|]. rewrite E2. split.
    + intros R e b He D. assert (X : In (e, b) (restructuring_edges g use_lag w)) by (apply restructuring_in; auto). rewrite R in X. destruct X.
    + intros N. destruct (restructuring_edges g use_lag w) as [|[e b] r] eqn:R; [reflexivity|]. exfalso.
      assert (X : In (e, b) (restructuring_edges g use_lag w)) by (rewrite R; left; reflexivity). apply restructuring_in in X as [X1 X2]. apply (N e b X1 X2).
  - intros w st Hs. apply (SC w), Hs.
  - intros w. destruct (SC w) as (_ & _ & _ & S1 & S2). auto.
  - assert (Hnd := rs_nodup _ _ H). clear - Hnd H. induction (rg_nodes g) as [|w l IH]; cbn [map concat]; [constructor|].
    inversion Hnd as [|? ? N1 N2]; subst. rewrite map_app. apply nodup_app_gen; [apply (stages_nodup g use_lag H)|apply IH, N2|].
    intros x X1 X2. apply (stages_fst g use_lag H) in X1. apply (nodes_in g use_lag H) in X2 as [X2 _]. rewrite X1 in X2. contradiction.
  - intros ne Hn. split; [|rewrite <- (gi_nodes _ _ _ _ _ I); apply (gi_order _ _ _ _ _ I), Hn].
    destruct (gi_sound _ _ _ _ _ I ne Hn) as [(w & _ & X)|(e & _ & [X|X])].
    + apply (links_spec w (rg_amounts g w)) in X; [|apply (rs_amounts _ _ H)]. destruct X as (l1 & a & b & l2 & _ & ->). right. reflexivity.
    + apply (start_part_type _ _ _ _ _ X).
    + left. apply (finish_part_type _ _ _ _ _ X).
  - intros ne Hn. destruct (gi_sound _ _ _ _ _ I ne Hn) as [(w & X1 & X2)|X]; [left|right; exact X]. exists w. split; [exact X1|].
    apply (links_spec w (rg_amounts g w)); [apply (rs_amounts _ _ H)|exact X2].
  - intros w ne Hw Hl. apply (gi_links _ _ _ _ _ I w ne Hw). apply (links_spec w (rg_amounts g w)); [apply (rs_amounts _ _ H)|exact Hl].
  - intros e He. apply (gi_complete _ _ _ _ _ I e He). apply (comes_before_in _ _ _ (rs_order _ _ H e He)).
Qed.
Print Assumptions restructure_correct.

Lemma split_unique {A B} (h : A -> B) : forall (a c : list A) x y b d, NoDup (map h (a ++ x :: b)) -> a ++ x :: b = c ++ y :: d -> h x = h y -> a = c /\ x = y.
Proof.
  induction a as [|z a IH]; intros [|z' c] x y b d N E K; cbn in *.
  - injection E as -> _. auto.
  - injection E as <- E. inversion N as [|? ? N1 _]; subst. exfalso. apply N1. rewrite map_app. apply in_app_iff. right. left. auto.
  - injection E as <- E. inversion N as [|? ? N1 _]; subst. exfalso. apply N1. rewrite map_app. apply in_app_iff. right. left. auto.
  - injection E as <- E. inversion N as [|? ? _ N2]; subst. destruct (IH c x y b d N2 E K) as [-> ->]. auto.
Qed.
(** If no work had two inseparable predecessors or successors, no stage has. *)
Theorem restructure_chains g use_lag nodes edges : restructurable g use_lag -> restructure g use_lag = Some (nodes, edges) ->
  (forall e e', In e (rg_edges g) -> In e' (rg_edges g) -> re_type e = IFS -> re_type e' = IFS ->
     (re_to e = re_to e' -> re_from e = re_from e') /\ (re_from e = re_from e' -> re_to e = re_to e')) ->
  forall ne ne', In ne edges -> In ne' edges -> ne_type ne = IFS -> ne_type ne' = IFS ->
    (ne_to ne = ne_to ne' -> ne_from ne = ne_from ne') /\ (ne_from ne = ne_from ne' -> ne_to ne = ne_to ne').
Proof.
  intros H R Hc. destruct (restructure_correct g use_lag H) as (stages & edges' & R' & Ids & _ & _ & _ & _ & Src & _ & _).
  rewrite R in R'. injection R' as _ <-.
  assert (Nd : forall w, NoDup (map st_id (stages w))).
  { intros w. destruct (Ids w) as (k & -> & _). apply nodup_app_gen.
    - apply (nodup_map_inj (fun i => i)); [intros a b _ _ [= ->]; reflexivity|]. rewrite map_id. apply seq_NoDup.
    - repeat constructor. intros [].
    - intros x H1 [<-|[]]. apply in_map_iff in H1 as (i & [=] & _). }
  assert (Fst : forall w s, In s (stages w) -> fst (st_id s) = w).
  { intros w s Hs. destruct (Ids w) as (k & E & _). apply (in_map st_id) in Hs. rewrite E, in_app_iff, in_map_iff in Hs. destruct Hs as [(j & <- & _)|[<-|[]]]; reflexivity. }
  assert (Cases : forall ne, In ne edges -> ne_type ne = IFS -> (exists w l1 s s' l2, stages w = l1 ++ s :: s' :: l2 /\ ne_from ne = st_id s /\ ne_to ne = st_id s') \/
     exists e a f l1 l2, In e (rg_edges g) /\ re_type e = IFS /\ stages (re_from e) = l1 ++ [a] /\ stages (re_to e) = f :: l2 /\ ne_from ne = st_id a /\ ne_to ne = st_id f).
  { intros ne Hn T. destruct (Src ne Hn) as [(w & _ & l1 & s & s' & l2 & E & ->)|(e & He & [P|P])].
    - left. exists w, l1, s, s', l2. auto.
    - right. inversion P as [a f T' (s1 & l1 & E1 & I1) (s2 & l2 & E2 & I2) EE|a f T' (s1 & l1 & E1 & I1) (s2 & l2 & E2 & I2) EE|a f U T' X1 X2 EE|a f U T' X1 X2 EE|a f p U T' X0 X1 X2 EE]; subst ne; try discriminate T.
      exists e, s1, s2, l1, l2. cbn [ne_from ne_to]. repeat split; auto.
    - apply finish_part_type in P. congruence. }
  intros ne ne' N1 N2 T1 T2. destruct (Cases ne N1 T1) as [(w & l1 & s & s' & l2 & E & F1 & F2)|(e & a & f & l1 & l2 & He & Te & E1 & E2 & F1 & F2)];
  destruct (Cases ne' N2 T2) as [(w' & m1 & t & t' & m2 & E' & G1 & G2)|(e' & a' & f' & m1 & m2 & He' & Te' & E1' & E2' & G1 & G2)]; rewrite F1, F2, G1, G2.
  - split; intros K.
    + assert (w = w') by (rewrite <- (Fst w s'), <- (Fst w' t'), K; [reflexivity|rewrite E'; apply in_app_iff; right; right; left; reflexivity|rewrite E; apply in_app_iff; right; right; left; reflexivity]). subst w'.
      assert (X := Nd w). rewrite E in X, E'. replace (l1 ++ s :: s' :: l2) with ((l1 ++ [s]) ++ s' :: l2) in * by (rewrite <- app_assoc; reflexivity). replace (m1 ++ t :: t' :: m2) with ((m1 ++ [t]) ++ t' :: m2) in E' by (rewrite <- app_assoc; reflexivity).
      destruct (split_unique st_id _ _ _ _ _ _ X E' K) as [Y _]. apply app_inj_tail in Y as [_ ->]. reflexivity.
    + assert (w = w') by (rewrite <- (Fst w s), <- (Fst w' t), K; [reflexivity|rewrite E'; apply in_app_iff; right; left; reflexivity|rewrite E; apply in_app_iff; right; left; reflexivity]). subst w'.
      assert (X := Nd w). rewrite E in X, E'. destruct (split_unique st_id _ _ _ _ _ _ X E' K) as [-> ->]. apply app_inv_head in E'. injection E' as -> _. reflexivity.
  - split; intros K; exfalso.
    + assert (w = re_to e') by (rewrite <- (Fst w s'), <- (Fst (re_to e') f'), K; [reflexivity|rewrite E2'; left; reflexivity|rewrite E; apply in_app_iff; right; right; left; reflexivity]). subst w.
      assert (X := Nd (re_to e')). rewrite E in X, E2'. replace (l1 ++ s :: s' :: l2) with ((l1 ++ [s]) ++ s' :: l2) in * by (rewrite <- app_assoc; reflexivity).
      destruct (split_unique st_id (l1 ++ [s]) [] s' f' l2 m2 X E2' K) as [Y _]. destruct l1; discriminate.
    + assert (w = re_from e') by (rewrite <- (Fst w s), <- (Fst (re_from e') a'), K; [reflexivity|rewrite E1'; apply in_app_iff; right; left; reflexivity|rewrite E; apply in_app_iff; right; left; reflexivity]). subst w.
      assert (X := Nd (re_from e')). rewrite E in X, E1'. destruct (split_unique st_id l1 m1 s a' (s' :: l2) [] X E1' K) as [-> ->]. apply app_inv_head in E1'. discriminate.
  - split; intros K; exfalso.
    + assert (w' = re_to e) by (rewrite <- (Fst w' t'), <- (Fst (re_to e) f), K; [reflexivity|rewrite E2; left; reflexivity|rewrite E'; apply in_app_iff; right; right; left; reflexivity]). subst w'.
      assert (X := Nd (re_to e)). rewrite E' in X, E2. replace (m1 ++ t :: t' :: m2) with ((m1 ++ [t]) ++ t' :: m2) in * by (rewrite <- app_assoc; reflexivity).
      destruct (split_unique st_id (m1 ++ [t]) [] t' f m2 l2 X E2 (eq_sym K)) as [Y _]. destruct m1; discriminate.
    + assert (w' = re_from e) by (rewrite <- (Fst w' t), <- (Fst (re_from e) a), K; [reflexivity|rewrite E1; apply in_app_iff; right; left; reflexivity|rewrite E'; apply in_app_iff; right; left; reflexivity]). subst w'.
      assert (X := Nd (re_from e)). rewrite E' in X, E1. destruct (split_unique st_id m1 l1 t a (t' :: m2) [] X E1 (eq_sym K)) as [-> ->]. apply app_inv_head in E1. discriminate.
  - split; intros K.
    + assert (re_to e = re_to e') by (rewrite <- (Fst (re_to e) f), <- (Fst (re_to e') f'), K; [reflexivity|rewrite E2'; left; reflexivity|rewrite E2; left; reflexivity]).
      assert (Y : re_from e = re_from e') by (apply (Hc e e' He He' Te Te'); assumption). rewrite Y in E1. rewrite E1 in E1'. apply app_inj_tail in E1' as [_ ->]. reflexivity.
    + assert (re_from e = re_from e') by (rewrite <- (Fst (re_from e) a), <- (Fst (re_from e') a'), K; [reflexivity|rewrite E1'; apply in_app_iff; right; left; reflexivity|rewrite E1; apply in_app_iff; right; left; reflexivity]).
      assert (Y : re_to e = re_to e') by (apply (Hc e e' He He' Te Te'); assumption). rewrite Y in E2. rewrite E2 in E2'. injection E2' as -> _. reflexivity.
Qed.
Print Assumptions restructure_chains.

(** ** A concrete case with every type of edge *)
Definition rx_graph : rgraph :=
  RG [0; 1; 2; 3; 4]%nat
     [RE 0 1 0 FS; RE 1 2 5 SS; RE 1 3 2 FFS; RE 2 3 4 FF; RE 2 3 0 SS; RE 3 4 (3 # 2) FS; RE 0 2 0 IFS]
     (fun w => nth w [0; 10; 8; 20; 0] 0)
     (fun w => nth w [[]; [[7; 3]; []; []; [2]]; [[9]; []; []; []]; [[100]; [1]; []; []]; []]%Z []).
Lemma rx_ok use_lag : restructurable rx_graph use_lag.
Proof.
  constructor.
  - repeat constructor; simpl; intuition discriminate.
  - intros e He. cbn in He. repeat destruct He as [<-|He]; try destruct He; cbn [re_from re_to];
      [exists []; exists []|exists [0%nat]; exists []|exists [0%nat]; exists [2%nat]|exists [0; 1]%nat; exists []|exists [0; 1]%nat; exists []|exists [0; 1; 2]%nat; exists []|exists []; exists [1%nat]]; eexists; reflexivity.
  - intros _ k [-> | ->]; vm_compute; repeat constructor; simpl; intuition discriminate.
  - intros w i j. do 5 (destruct w as [|w]; [do 5 (destruct i as [|i]; [do 3 (destruct j as [|j]; [vm_compute; discriminate|]); destruct j; vm_compute; discriminate|]); destruct i, j; vm_compute; discriminate|]). destruct w, i, j; vm_compute; discriminate.
Qed.
Example restructure_example :
  match restructure rx_graph true with
  | Some (nodes, edges) =>
      map (fun s => (st_id s, st_amounts s)) (firstn 4 nodes) =
        [((0%nat, None), []); ((1%nat, Some 0%nat), [[1; 0]; []; []; [0]]%Z); ((1%nat, Some 1%nat), [[2; 0]; []; []; [0]]%Z); ((1%nat, None), [[4; 3]; []; []; [2]]%Z)] /\
      length nodes = 10%nat /\ length edges = 13%nat
  | None => False end.
Proof. vm_compute. repeat split; reflexivity. Qed.

(** ** Findings *)
(** The order of the works has to respect edges of all types, as that of WorkGraph.nodes does:
    if the later work of a Start-Start edge comes first in it, restructuring raises KeyError. *)
Theorem start_start_order_crashes :
  restructure (RG [0; 1; 2; 3]%nat [RE 0 1 0 FS; RE 0 2 0 FS; RE 2 1 0 SS; RE 1 3 0 FS; RE 2 3 0 FS] (fun _ => 1) (fun _ => [])) false = None.
Proof. reflexivity. Qed.
(** Two edges of the same kind between two works raise KeyError when lags are used. *)
Theorem double_edge_crashes :
  restructure (RG [0; 1]%nat [RE 0 1 1 SS; RE 0 1 2 SS] (fun _ => 4) (fun _ => [])) true = None.
Proof. reflexivity. Qed.
(** A Finish-Finish edge with a lag divides the later work by the volume of the earlier one:
    with volumes 10 and 1000 and a lag of 5 the second half of the later work (500) waits. *)
Theorem finish_lag_uses_wrong_volume :
  option_map (fun r => map (fun s => (st_id s, Qred (st_share s))) (fst r)) (restructure (RG [0; 1]%nat [RE 0 1 5 FF] (fun w => if Nat.eqb w 0 then 10 else 1000) (fun _ => [])) true)
  = Some [((0%nat, None), 1); ((1%nat, Some 0%nat), 1 # 2); ((1%nat, None), 1 # 2)].
Proof. vm_compute. reflexivity. Qed.
