(** Proofs about splitting one work into stages. *)
From Coq Require Import ZArith QArith Qround List Bool Lia Lqa Permutation Sorted Setoid.
From Verif Require Import GraphModel RestructModel.
Import ListNotations.
Local Open Scope Q_scope.

(** ** Specification *)
(** The shares of stages added up. *)
Definition total_share (l : list stage) : Q := fold_right (fun s a => st_share s + a) 0 l.
(** The amount of requirement [j] of kind [i]. *)
Definition amount (i j : nat) (am : list (list Z)) : Z := nth j (nth i am []) 0%Z.
Definition total_amount (i j : nat) (l : list stage) : Z := fold_right (fun s a => (amount i j (st_amounts s) + a)%Z) 0%Z l.
Definition shape (am : list (list Z)) : list nat := map (@length Z) am.
(** When the stage with id [i] ends, the share [p] of the work is done; when it begins. *)
Definition done_after (stages : list stage) (i : nid) (p : Q) : Prop :=
  exists l1 s l2, stages = l1 ++ s :: l2 /\ st_id s = i /\ total_share (l1 ++ [s]) == p.
Definition done_before (stages : list stage) (i : nid) (p : Q) : Prop :=
  exists l1 s l2, stages = l1 ++ s :: l2 /\ st_id s = i /\ total_share l1 == p.
(** The key under which an edge is matched with a stage. *)
Definition match_key (e : redge) (b : bool) : pairs := if b then (re_to e, re_from e) else (re_from e, re_to e).

(** ** Sums *)
Lemma total_share_app l m : total_share (l ++ m) == total_share l + total_share m.
Proof.
  induction l as [|s l IH]; [change (total_share []) with 0; cbn [app]; lra|].
  change (total_share ((s :: l) ++ m)) with (st_share s + total_share (l ++ m)). change (total_share (s :: l)) with (st_share s + total_share l). rewrite IH. lra.
Qed.
Lemma total_amount_app i j l m : total_amount i j (l ++ m) = (total_amount i j l + total_amount i j m)%Z.
Proof.
  induction l as [|s l IH]; [reflexivity|].
  change (total_amount i j ((s :: l) ++ m)) with (amount i j (st_amounts s) + total_amount i j (l ++ m))%Z. change (total_amount i j (s :: l)) with (amount i j (st_amounts s) + total_amount i j l)%Z. lia.
Qed.
Lemma total_amount_one i j s : total_amount i j [s] = amount i j (st_amounts s).
Proof. cbn. lia. Qed.
Lemma done_after_app stages more i p : done_after stages i p -> done_after (stages ++ more) i p.
Proof. intros (l1 & s & l2 & -> & H1 & H2). exists l1, s, (l2 ++ more). rewrite <- app_assoc. auto. Qed.
Lemma done_before_app stages more i p : done_before stages i p -> done_before (stages ++ more) i p.
Proof. intros (l1 & s & l2 & -> & H1 & H2). exists l1, s, (l2 ++ more). rewrite <- app_assoc. auto. Qed.
Lemma done_after_last l s p : total_share (l ++ [s]) == p -> done_after (l ++ [s]) (st_id s) p.
Proof. intros H. exists l, s, []. auto. Qed.

(** ** Amounts *)
Lemma qint_0 : forall p, qint (p * inject_Z 0) = 0%Z.
Proof. intros p. unfold qint. simpl. rewrite Z.mul_0_r. reflexivity. Qed.
Lemma qint_bounds q : 0 <= q -> (0 <= qint q)%Z /\ inject_Z (qint q) <= q.
Proof.
  intros H. assert (Hn : (0 <= Qnum q)%Z) by (unfold Qle in H; simpl in H; lia).
  assert (E : qint q = Qfloor q). { unfold qint, Qfloor. destruct q as [a b]. simpl in *. apply Z.quot_div_nonneg; lia. }
  rewrite E. split; [|apply Qfloor_le]. change 0%Z with (Qfloor 0). apply Qfloor_resp_le. exact H.
Qed.
Lemma nth_map_0 {A B} (f : A -> B) a b i l : f a = b -> nth i (map f l) b = f (nth i l a).
Proof. intros <-. apply map_nth. Qed.
Lemma amount_share i j p am : amount i j (share_amounts p am) = qint (p * inject_Z (amount i j am)).
Proof.
  unfold amount, share_amounts. rewrite (nth_map_0 _ []) by reflexivity. rewrite (nth_map_0 _ 0%Z); [reflexivity|apply qint_0].
Qed.
Lemma shape_share p am : shape (share_amounts p am) = shape am.
Proof. unfold shape, share_amounts. rewrite map_map. apply map_ext. intros a. apply map_length. Qed.
Lemma zip_length {A B C} (f : A -> B -> C) : forall l m, length l = length m -> length (zip_with f l m) = length l.
Proof. induction l as [|a l IH]; intros [|b m] H; try discriminate; cbn; [reflexivity|]. f_equal. apply IH. injection H; auto. Qed.
Lemma zip_nth (f : Z -> Z -> Z) : f 0%Z 0%Z = 0%Z -> forall l m j, length l = length m -> nth j (zip_with f l m) 0%Z = f (nth j l 0%Z) (nth j m 0%Z).
Proof. intros F. induction l as [|a l IH]; intros [|b m] j H; try discriminate; destruct j; cbn; auto. Qed.
Lemma zip2_amount (f : Z -> Z -> Z) : f 0%Z 0%Z = 0%Z -> forall a b i j, shape a = shape b -> amount i j (zip_with (zip_with f) a b) = f (amount i j a) (amount i j b).
Proof.
  intros F. unfold amount. induction a as [|x a IH]; intros [|y b] i j H; try discriminate; cbn [zip_with].
  - destruct i; cbn; destruct j; auto.
  - injection H as H1 H2. destruct i as [|i]; cbn [nth]; [apply zip_nth; assumption|apply IH, H2].
Qed.
Lemma zip2_shape (f : Z -> Z -> Z) : forall a b, shape a = shape b -> shape (zip_with (zip_with f) a b) = shape a.
Proof. induction a as [|x a IH]; intros [|y b] H; try discriminate; cbn; [reflexivity|]. injection H as H1 H2. f_equal; [apply zip_length, H1|apply IH, H2]. Qed.
Lemma zeros_amount i j (am : list (list Z)) : amount i j (map (map (fun _ => 0%Z)) am) = 0%Z.
Proof. unfold amount. rewrite (nth_map_0 _ []) by reflexivity. rewrite (nth_map_0 _ 0%Z) by reflexivity. reflexivity. Qed.
Lemma zeros_shape (am : list (list Z)) : shape (map (map (fun _ => 0%Z)) am) = shape am.
Proof. unfold shape. rewrite map_map. apply map_ext. intros a. apply map_length. Qed.

(** ** Proportions *)
Lemma proportion_range volume ul e b : 0 <= proportion volume ul e b <= 1.
Proof.
  unfold proportion. destruct (ul && negb (Qle_bool (re_lag e) 0) && Qle_bool (re_lag e) (volume (re_from e))) eqn:C; [|destruct b; lra].
  apply andb_true_iff in C as [C C2]. apply andb_true_iff in C as [_ C1]. apply Qle_bool_iff in C2. apply negb_true_iff in C1.
  assert (L : 0 < re_lag e) by (apply Qnot_le_lt; intros H; apply Qle_bool_iff in H; congruence).
  set (lag := re_lag e) in *. set (vol := volume (re_from e)) in *. assert (V : 0 < vol) by lra.
  assert (D : 0 < lag / vol <= 1).
  { split; [apply Qlt_shift_div_l; lra|apply Qle_shift_div_r; lra]. }
  assert (E : forall c, c * lag / vol == c * (lag / vol)) by (intros c; unfold Qdiv; ring).
  destruct b; rewrite E; lra.
Qed.
Lemma pinsert_perm x l : Permutation (pinsert x l) (x :: l).
Proof. induction l as [|y l IH]; cbn; [constructor; constructor|]. destruct (Qle_bool (fst x) (fst y)); [reflexivity|]. rewrite IH. apply perm_swap. Qed.
Lemma psort_perm l : Permutation (psort l) l.
Proof. induction l as [|x l IH]; cbn; [constructor|]. rewrite pinsert_perm. constructor. exact IH. Qed.
Definition pascending := StronglySorted (fun x y : pedge => fst x <= fst y).
Lemma pinsert_sorted x l : pascending l -> pascending (pinsert x l).
Proof.
  intros H. induction H as [|y l Hl IH Hf]; cbn [pinsert]; [repeat constructor|].
  destruct (Qle_bool (fst x) (fst y)) eqn:C.
  - apply Qle_bool_iff in C. constructor; [constructor; assumption|]. constructor; [exact C|]. eapply Forall_impl; [|exact Hf]. intros z Hz. simpl in Hz. lra.
  - assert (fst y <= fst x) by (apply Qlt_le_weak, Qnot_le_lt; intros H; apply Qle_bool_iff in H; congruence).
    constructor; [exact IH|]. apply Forall_forall. intros z Hz. apply (Permutation_in _ (pinsert_perm x l)) in Hz. destruct Hz as [<-|Hz]; [assumption|].
    rewrite Forall_forall in Hf. apply Hf, Hz.
Qed.
Lemma psort_sorted l : pascending (psort l).
Proof. induction l; cbn; [constructor|apply pinsert_sorted; assumption]. Qed.

(** ** The loop *)
Section Loop.
  Variables (w : nat) (amounts : list (list Z)) (use_lag : bool).
  Hypothesis Hpos : forall i j, (0 <= amount i j amounts)%Z.

  Definition good_match (stages : list stage) (x : pedge) (m : pairs * nid) : Prop :=
    fst m = match_key (fst (snd x)) (snd (snd x)) /\
    (if snd (snd x) then done_before stages (snd m) (fst x) else done_after stages (snd m) (fst x)).
  Lemma good_match_app stages more x m : good_match stages x m -> good_match (stages ++ more) x m.
  Proof. intros [H1 H2]. split; [exact H1|]. destruct (snd (snd x)); [apply done_before_app|apply done_after_app]; exact H2. Qed.

  Record split_inv (s : sstate) (seen : list pedge) : Prop := {
    si_ids : map st_id (ss_stages s) = map (fun i => (w, Some i)) (seq 0 (S (ss_i s)));
    si_total : total_share (ss_stages s) == ss_prev s;
    si_prev : 0 <= ss_prev s <= 1;
    si_shares : forall st, In st (ss_stages s) -> 0 <= st_share st /\ shape (st_amounts st) = shape amounts /\ forall i j, (0 <= amount i j (st_amounts st))%Z;
    si_shape : shape (ss_accum s) = shape amounts;
    si_accum : forall i j, amount i j (ss_accum s) = total_amount i j (ss_stages s);
    si_bound : forall i j, inject_Z (amount i j (ss_accum s)) <= ss_prev s * inject_Z (amount i j amounts);
    si_match : use_lag = true -> exists done pend, seen = done ++ pend /\ Forall2 (good_match (ss_stages s)) done (ss_matches s) /\
      map snd pend = ss_pending s /\ Forall (fun x => fst x == ss_prev s) pend;
    si_nomatch : use_lag = false -> ss_matches s = []
  }.
  Lemma share_pos p : 0 <= p -> forall i j, (0 <= amount i j (share_amounts p amounts))%Z.
  Proof.
    intros Hp i j. rewrite amount_share. apply qint_bounds. specialize (Hpos i j). assert (0 <= inject_Z (amount i j amounts)) by (rewrite Zle_Qle in Hpos; exact Hpos).
    apply Qmult_le_0_compat; assumption.
  Qed.
  Lemma share_bound p : 0 <= p -> forall i j, inject_Z (amount i j (share_amounts p amounts)) <= p * inject_Z (amount i j amounts).
  Proof.
    intros Hp i j. rewrite amount_share. apply qint_bounds. specialize (Hpos i j). assert (0 <= inject_Z (amount i j amounts)) by (rewrite Zle_Qle in Hpos; exact Hpos).
    apply Qmult_le_0_compat; assumption.
  Qed.
  Lemma split_first_inv x : 0 <= fst x <= 1 -> split_inv (split_first w amounts use_lag x) [x].
  Proof.
    intros Hx. destruct x as [p ed]. cbn [fst] in Hx. unfold split_first. constructor; cbn [ss_i ss_prev ss_accum ss_stages ss_matches ss_pending].
    - reflexivity.
    - cbn. lra.
    - exact Hx.
    - intros st [<-|[]]. cbn [st_share st_amounts]. split; [apply Hx|]. split; [apply shape_share|]. apply share_pos, Hx.
    - unfold add_amounts. rewrite zip2_shape; [apply zeros_shape|]. rewrite zeros_shape, shape_share. reflexivity.
    - intros i j. unfold add_amounts. rewrite zip2_amount; [|reflexivity|rewrite zeros_shape, shape_share; reflexivity]. rewrite zeros_amount, total_amount_one. reflexivity.
    - intros i j. unfold add_amounts. rewrite zip2_amount; [|reflexivity|rewrite zeros_shape, shape_share; reflexivity]. rewrite zeros_amount. rewrite Z.add_0_l. apply share_bound, Hx.
    - intros ->. exists [], [(p, ed)]. repeat split; [constructor|]. constructor; [cbn; lra|constructor].
    - reflexivity.
  Qed.
  (** creating the next stage *)
  Lemma match_pending s pend cur : split_inv s [] \/ True -> map snd pend = ss_pending s -> Forall (fun x => fst x == ss_prev s) pend ->
    map st_id (ss_stages s) = map (fun i => (w, Some i)) (seq 0 (S (ss_i s))) -> total_share (ss_stages s) == ss_prev s ->
    Forall2 (good_match (ss_stages s ++ [cur])) pend (matches (ss_pending s) (w, Some (ss_i s)) (st_id cur)).
  Proof.
    intros _ E F Ids T. rewrite <- E. clear E. induction F as [|x pend Hx F IH]; cbn [map matches]; [constructor|]. constructor; [|exact IH].
    destruct x as [p [e b]]. cbn [fst snd] in *. unfold good_match. cbn [fst snd]. destruct b; cbn [fst snd match_key]; split; try reflexivity.
    - exists (ss_stages s), cur, []. split; [reflexivity|]. split; [reflexivity|]. rewrite T, Hx. reflexivity.
    - apply done_after_app.
      assert (exists l st, ss_stages s = l ++ [st] /\ st_id st = (w, Some (ss_i s))) as (l & st & El & Es).
      { destruct (exists_last (l := ss_stages s)) as (l & st & El); [intros H; rewrite H in Ids; discriminate|]. exists l, st. split; [exact El|].
        rewrite El in Ids. rewrite map_app in Ids. rewrite seq_S in Ids. rewrite map_app in Ids. cbn [map] in Ids. apply app_inj_tail in Ids as [_ H]. exact H. }
      rewrite El in *. rewrite <- Es. apply done_after_last. rewrite T, Hx. reflexivity.
  Qed.
  Lemma split_step_inv s seen x : split_inv s seen -> ss_prev s <= fst x <= 1 -> split_inv (split_step w amounts use_lag s x) (seen ++ [x]).
  Proof.
    intros I Hx. destruct x as [a ed]. cbn [fst] in Hx. unfold split_step. destruct (Qeq_bool a (ss_prev s)) eqn:C.
    - apply Qeq_bool_iff in C. destruct I as [I1 I2 I3 I4 I5 I6 I7 I8 I9]. constructor; cbn [ss_i ss_prev ss_accum ss_stages ss_matches ss_pending]; auto.
      intros H. rewrite H. destruct (I8 H) as (done & pend & E & F & P & Q0). exists done, (pend ++ [(a, ed)]). split; [rewrite E, app_assoc; reflexivity|]. split; [exact F|].
      split; [rewrite map_app; cbn [map snd]; f_equal; exact P|]. apply Forall_app. split; [exact Q0|]. constructor; [exact C|constructor].
    - set (p := a - ss_prev s). assert (Hp : 0 <= p) by (unfold p; lra). destruct I as [I1 I2 I3 I4 I5 I6 I7 I8 I9].
      set (cur := St (w, Some (S (ss_i s))) p (share_amounts p amounts)).
      assert (E1 : forall i j, amount i j (add_amounts (ss_accum s) (share_amounts p amounts)) = (amount i j (ss_accum s) + amount i j (share_amounts p amounts))%Z).
      { intros i j. unfold add_amounts. apply zip2_amount; [reflexivity|]. rewrite I5, shape_share. reflexivity. }
      constructor; cbn [ss_i ss_prev ss_accum ss_stages ss_matches ss_pending].
      + rewrite map_app, I1. rewrite (seq_S (S (ss_i s)) 0). rewrite map_app. reflexivity.
      + rewrite total_share_app, I2. cbn. unfold p. lra.
      + lra.
      + intros st H. apply in_app_iff in H as [H|[<-|[]]]; [apply I4, H|]. cbn [st_share st_amounts]. split; [exact Hp|]. split; [apply shape_share|]. apply share_pos, Hp.
      + unfold add_amounts. rewrite zip2_shape; [exact I5|]. rewrite I5, shape_share. reflexivity.
      + intros i j. rewrite E1, total_amount_app, I6, total_amount_one. reflexivity.
      + intros i j. rewrite E1, inject_Z_plus. assert (B1 := I7 i j). assert (B2 := share_bound p Hp i j). set (A := inject_Z (amount i j amounts)) in *. set (X := inject_Z (amount i j (share_amounts p amounts))) in *. assert (p * A == a * A - ss_prev s * A) by (unfold p; ring). lra.
      + intros H. rewrite H. destruct (I8 H) as (done & pend & E & F & P & Q0). exists (done ++ pend), [(a, ed)]. split; [rewrite E; reflexivity|]. split.
        * apply Forall2_app.
          -- clear - F. induction F as [|x m l l' H F IH]; constructor; [apply good_match_app, H|exact IH].
          -- apply (match_pending s pend cur); auto.
        * split; [reflexivity|]. constructor; [cbn; lra|constructor].
      + intros H. rewrite H, (I9 H). reflexivity.
  Qed.
  Lemma split_loop_inv : forall l s seen, split_inv s seen -> pascending l -> Forall (fun x => ss_prev s <= fst x <= 1) l ->
    split_inv (fold_left (split_step w amounts use_lag) l s) (seen ++ l).
  Proof.
    induction l as [|x l IH]; intros s seen I Hs Hf; cbn [fold_left]; [rewrite app_nil_r; exact I|].
    inversion Hs as [|? ? S1 S2]; subst. inversion Hf as [|? ? F1 F2]; subst.
    replace (seen ++ x :: l) with ((seen ++ [x]) ++ l) by (rewrite <- app_assoc; reflexivity). apply IH; [apply split_step_inv; assumption|exact S1|].
    assert (E : ss_prev (split_step w amounts use_lag s x) == fst x).
    { destruct x as [a ed]. unfold split_step. destruct (Qeq_bool a (ss_prev s)) eqn:C; [apply Qeq_bool_iff in C; cbn; rewrite C; reflexivity|reflexivity]. }
    rewrite Forall_forall in *. intros y Hy. rewrite E. split; [apply S2, Hy|apply F2, Hy].
  Qed.

  (** ** The result *)
  Record split_ok (use_lag : bool) (pes : list pedge) (stages : list stage) (ms : list (pairs * nid)) : Prop := {
    so_ids : exists k, map st_id stages = map (fun i => (w, Some i)) (seq 0 k) ++ [(w, None)] /\ (k = 0%nat <-> pes = []);
    so_total : total_share stages == 1;
    so_shares : forall st, In st stages -> 0 <= st_share st /\ shape (st_amounts st) = shape amounts /\ forall i j, (0 <= amount i j (st_amounts st))%Z;
    so_amounts : forall i j, total_amount i j stages = amount i j amounts;
    so_match : use_lag = true -> exists pes', Permutation pes pes' /\ Forall2 (good_match stages) pes' ms;
    so_nomatch : use_lag = false -> ms = []
  }.
  Lemma split_work_ok volume restr : let pes := map (fun x => (proportion volume use_lag (fst x) (snd x), x)) restr in
    split_ok use_lag pes (fst (split_work w amounts use_lag volume restr)) (snd (split_work w amounts use_lag volume restr)).
  Proof.
    cbv zeta. unfold split_work. set (pes := map _ restr). assert (P := psort_perm pes). assert (S0 := psort_sorted pes).
    assert (R : Forall (fun x => 0 <= fst x <= 1) (psort pes)).
    { apply Forall_forall. intros x Hx. apply (Permutation_in _ P) in Hx. unfold pes in Hx. apply in_map_iff in Hx as (y & <- & _). cbn [fst]. apply proportion_range. }
    destruct (psort pes) as [|x r] eqn:E.
    - assert (pes = []) as -> by (apply Permutation_nil; symmetry; apply Permutation_sym, P). cbn [fst snd]. constructor.
      + exists 0%nat. split; [reflexivity|tauto].
      + cbn. lra.
      + intros st [<-|[]]. cbn [st_share st_amounts]. split; [lra|]. auto.
      + intros i j. rewrite total_amount_one. reflexivity.
      + intros _. exists []. split; constructor.
      + reflexivity.
    - inversion S0 as [|? ? S1 S2]; subst. inversion R as [|? ? R1 R2]; subst.
      assert (I := split_loop_inv r (split_first w amounts use_lag x) [x] (split_first_inv x R1) S1).
      assert (E0 : ss_prev (split_first w amounts use_lag x) = fst x) by (destruct x; reflexivity). rewrite E0 in I.
      assert (F : Forall (fun y => fst x <= fst y <= 1) r) by (rewrite Forall_forall in *; intros y Hy; split; [apply S2, Hy|apply R2, Hy]). specialize (I F). clear E0 F.
      set (s := fold_left (split_step w amounts use_lag) r (split_first w amounts use_lag x)) in *. unfold split_last. cbn [fst snd].
      destruct I as [I1 I2 I3 I4 I5 I6 I7 I8 I9].
      assert (E1 : forall i j, amount i j (sub_amounts amounts (ss_accum s)) = (amount i j amounts - amount i j (ss_accum s))%Z).
      { intros i j. unfold sub_amounts. apply zip2_amount; [reflexivity|]. rewrite I5. reflexivity. }
      constructor.
      + exists (S (ss_i s)). split; [rewrite map_app, I1; reflexivity|]. split; [discriminate|]. intros Hp. rewrite Hp in P. symmetry in P. apply Permutation_nil in P. discriminate.
      + rewrite total_share_app, I2. cbn. lra.
      + intros st H. apply in_app_iff in H as [H|[<-|[]]]; [apply I4, H|]. cbn [st_share st_amounts]. split; [lra|].
        split; [unfold sub_amounts; apply zip2_shape; rewrite I5; reflexivity|]. intros i j. rewrite E1.
        assert (B := I7 i j). specialize (Hpos i j). assert (inject_Z 0 <= inject_Z (amount i j amounts)) by (rewrite <- Zle_Qle; exact Hpos). change (inject_Z 0) with 0 in *.
        assert (inject_Z (amount i j (ss_accum s)) <= inject_Z (amount i j amounts)).
        { set (A := inject_Z (amount i j amounts)) in *. assert (ss_prev s * A <= 1 * A) by (apply Qmult_le_compat_r; [apply I3|assumption]). lra. }
        rewrite <- Zle_Qle in H0. lia.
      + intros i j. rewrite total_amount_app, <- I6, total_amount_one. cbn [st_amounts]. rewrite E1. lia.
      + intros H. rewrite H. exists (x :: r). split; [symmetry; exact P|]. destruct (I8 H) as (done & pend & Ed & Fd & Pd & Qd). change ([x] ++ r) with (x :: r) in Ed. rewrite Ed.
        apply Forall2_app.
        * clear - Fd. induction Fd as [|y m l l' H F IH]; constructor; [apply good_match_app, H|exact IH].
        * apply (match_pending s pend (St (w, None) (1 - ss_prev s) (sub_amounts amounts (ss_accum s)))); auto.
      + intros H. rewrite H, (I9 H). reflexivity.
  Qed.
End Loop.
