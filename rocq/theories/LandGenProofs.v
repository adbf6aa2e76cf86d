(** Proofs for C114. *)
From Coq Require Import ZArith List Bool Permutation Relations Arith Lia.
From Verif Require Import TimeModel MomentumModel GraphModel ScheduleSpec Digraph TopoModel TopoProofs TopoTheorems HeadModel HeadProofs HeadTheorems LandscapeModel LandscapeProofs LandscapeTheorems LandGenModel LandGenSpec.
Import ListNotations.
Local Open Scope Z_scope.

(** ** The largest needs *)
Definition rep (d L : list (nat * Z)) : Prop :=
  NoDup (map fst d) /\ forall m c, get d m = Some c <-> In (m, c) L /\ forall c', In (m, c') L -> c' <= c.
Lemma put_keys d k v : NoDup (map fst d) -> NoDup (map fst (put d k v)) /\ forall x, In x (map fst (put d k v)) <-> x = k \/ In x (map fst d).
Proof.
  induction d as [|[k' v'] d IH]; intros N; cbn [put].
  - split; [repeat constructor; intros []|]. intros x. cbn. intuition.
  - cbn in N. apply NoDup_cons_iff in N as [N1 N2]. destruct (IH N2) as [A B]. destruct (Nat.eqb_spec k k') as [<-|E]; cbn.
    + split; [constructor; auto|]. intuition.
    + split; [constructor; [rewrite B; intuition congruence|exact A]|]. intros x. rewrite B. intuition.
Qed.
Lemma get_put d k v m : get (put d k v) m = if Nat.eqb m k then Some v else get d m.
Proof.
  induction d as [|[k' v'] d IH]; cbn [put get]; [reflexivity|]. destruct (Nat.eqb_spec k k') as [<-|E]; cbn [get].
  - destruct (Nat.eqb_spec m k); reflexivity.
  - rewrite IH. destruct (Nat.eqb_spec m k'), (Nat.eqb_spec m k); congruence || reflexivity.
Qed.
Lemma get_in d : NoDup (map fst d) -> forall m c, In (m, c) d <-> get d m = Some c.
Proof.
  induction d as [|[k v] d IH]; intros N m c; cbn [get]; [split; [intros []|discriminate]|]. cbn in N. apply NoDup_cons_iff in N as [N1 N2].
  destruct (Nat.eqb_spec m k) as [->|E].
  - split; [intros [K|K]; [congruence|]|intros K; left; congruence]. exfalso. apply N1. apply (in_map fst) in K. exact K.
  - rewrite <- IH by exact N2. split; [intros [K|K]; [congruence|exact K]|intros K; right; exact K].
Qed.
Lemma has_largest (L : list (nat * Z)) m : (exists c, In (m, c) L) -> exists c, In (m, c) L /\ forall c', In (m, c') L -> c' <= c.
Proof.
  induction L as [|[k v] L IH]; [intros (c & [])|]. intros (c & H). destruct (Nat.eq_dec k m) as [->|E].
  - destruct (in_dec Nat.eq_dec m (map fst L)) as [K|K].
    + apply in_map_iff in K as ([m' c0] & E & K). cbn in E. subst m'. destruct IH as (c1 & A & B); [eauto|].
      exists (Z.max v c1). split; [destruct (Z.max_spec v c1) as [[_ ->]|[_ ->]]; [right; exact A|left; reflexivity]|].
      intros c' [F|F]; [injection F as <-; lia|]. apply B in F. lia.
    + exists v. split; [left; reflexivity|]. intros c' [F|F]; [injection F as <-; lia|]. exfalso. apply K. apply (in_map fst) in F. exact F.
  - destruct H as [H|H]; [congruence|]. destruct IH as (c1 & A & B); [eauto|]. exists c1. split; [right; exact A|]. intros c' [F|F]; [congruence|auto].
Qed.
Lemma add_rep d L x : rep d L -> rep (add_need d x) (L ++ [x]).
Proof.
  intros [N G]. destruct x as [k v]. unfold add_need. cbn [fst snd].
  assert (I : forall m c, In (m, c) (L ++ [(k, v)]) <-> In (m, c) L \/ (m = k /\ c = v)).
  { intros m c. rewrite in_app_iff. cbn. split; [intros [H|[H|[]]]; [auto|injection H as <- <-; auto]|intros [H|[-> ->]]; auto]. }
  assert (K : exists w, match get d k with Some v0 => put d k (Z.max v0 v) | None => put d k v end = put d k w /\
     (In (k, w) L \/ w = v) /\ v <= w /\ forall c, In (k, c) L -> c <= w).
  { destruct (get d k) as [v0|] eqn:E.
    - apply G in E as [E1 E2]. exists (Z.max v0 v). split; [reflexivity|]. split; [destruct (Z.max_spec v0 v) as [[_ ->]|[_ ->]]; auto|]. split; [lia|]. intros c H. apply E2 in H. lia.
    - exists v. split; [reflexivity|]. split; [auto|]. split; [lia|]. intros c H. exfalso. destruct (has_largest L k) as (c1 & A & B); [eauto|].
      assert (F : get d k = Some c1) by (apply G; auto). congruence. }
  destruct K as (w & -> & A & B & C). split; [apply put_keys, N|]. intros m c. rewrite get_put. setoid_rewrite I. destruct (Nat.eqb_spec m k) as [->|E].
  - split.
    + intros [= <-]. split; [destruct A as [A| ->]; auto|]. intros c' [H|[_ ->]]; auto.
    + intros [H1 H2]. f_equal. apply Z.le_antisymm.
      * apply H2. destruct A as [A| ->]; auto.
      * destruct H1 as [H1|[_ ->]]; auto.
  - rewrite G. split; intros [H1 H2]; split; auto.
    + intros c' [H|[H _]]; [auto|contradiction].
    + destruct H1 as [H1|[H1 _]]; [exact H1|contradiction].
Qed.
Lemma adds_rep l : forall d L, rep d L -> rep (fold_left add_need l d) (L ++ l).
Proof.
  induction l as [|x l IH]; intros d L R; cbn [fold_left]; [rewrite app_nil_r; exact R|]. replace (L ++ x :: l) with ((L ++ [x]) ++ l) by (rewrite <- app_assoc; reflexivity). apply IH, add_rep, R.
Qed.
Lemma max_rep needs nodes : NoDup (map fst (max_materials needs nodes)) /\ forall m c, get (max_materials needs nodes) m = Some c <-> largest needs nodes m c.
Proof.
  assert (K : forall l d L, rep d L -> rep (fold_left (fun d n => fold_left add_need (needs n) d) l d) (L ++ concat (map needs l))).
  { induction l as [|n l IH]; intros d L R; cbn [fold_left map concat]; [rewrite app_nil_r; exact R|]. rewrite app_assoc. apply IH, adds_rep, R. }
  destruct (K nodes [] []) as [A B].
  { split; [constructor|]. intros m c. cbn. split; [discriminate|intros [[] _]]. }
  split; [exact A|]. intros m c. unfold max_materials. rewrite B. cbn [app]. unfold largest, needed.
  assert (I : forall c, In (m, c) (concat (map needs nodes)) <-> exists n, In n nodes /\ In (m, c) (needs n)).
  { intros c0. rewrite in_concat. split; [intros (l & H & H'); apply in_map_iff in H as (n & <- & H); eauto|intros (n & H & H'); exists (needs n); split; [apply in_map, H|exact H']]. }
  setoid_rewrite I. reflexivity.
Qed.
Lemma names_in needs nodes m : In m (names nodes needs) <-> exists c, largest needs nodes m c.
Proof.
  destruct (max_rep needs nodes) as [N G]. unfold names. rewrite in_map_iff. split.
  - intros ([m' c] & E & H). cbn in E. subst m'. exists c. apply G, get_in; assumption.
  - intros (c & H). exists (m, c). split; [reflexivity|]. apply get_in; [exact N|apply G, H].
Qed.
Lemma maximum_is needs nodes m c : largest needs nodes m c -> maximum nodes needs m = c.
Proof. intros H. unfold maximum, get0. apply (proj2 (max_rep needs nodes)) in H. rewrite H. reflexivity. Qed.
Lemma needed_largest needs nodes m c : needed needs nodes m c -> exists c', largest needs nodes m c' /\ c <= c'.
Proof.
  intros (n & H & K). destruct (has_largest (concat (map needs nodes)) m) as (c1 & A & B).
  { exists c. apply in_concat. exists (needs n). split; [apply in_map, H|exact K]. }
  assert (I : forall c, In (m, c) (concat (map needs nodes)) <-> needed needs nodes m c).
  { intros c0. rewrite in_concat. split; [intros (l & H0 & H'); apply in_map_iff in H0 as (n' & <- & H0); exists n'; auto|intros (n' & H0 & H'); exists (needs n'); split; [apply in_map, H0|exact H']]. }
  exists c1. split; [split; [apply I, A|intros c' F; apply B, I, F]|]. apply B, I. exists n. auto.
Qed.

(** ** Roads *)
Lemma not_yet_all nb : forall chosen, (forall x, In x chosen -> ~ In x nb) -> not_yet nb chosen = chosen.
Proof.
  intros chosen. unfold not_yet. generalize chosen at 3 4 as tmp. induction chosen as [|x l IH]; intros tmp H; [reflexivity|]. cbn [fold_left].
  destruct (mem x nb) eqn:E; [apply mem_in in E; exfalso; apply (H x (in_eq _ _) E)|]. apply IH. auto using in_cons.
Qed.
Lemma neighbours_in roads x y : In y (neighbours roads x) -> exists w b, In ((x, y, w), b) roads \/ In ((y, x, w), b) roads.
Proof.
  unfold neighbours. intros H. apply in_map_iff in H as (r & <- & H). apply roads_of_in in H.
  assert (K : forall u v, nth_error (map fst roads) (rd_id r) = Some (u, v, rd_weight r) -> exists b, In ((u, v, rd_weight r), b) roads).
  { intros u v E. apply nth_error_In, in_map_iff in E as ([e b] & E & I). cbn in E. subst e. eauto. }
  destruct H as [H|H]; apply K in H as (b & H); eauto.
Qed.
Lemma add_roads_in roads x chosen b : (forall y, In y chosen -> ~ In y (neighbours roads x)) -> forall e,
  In e (add_roads roads x chosen b) <-> In e roads \/ exists i, (i < length chosen)%nat /\ e = ((x, nth i chosen 0%nat, 50 * (Z.of_nat i + 1)), b).
Proof.
  intros H e. unfold add_roads. rewrite (not_yet_all _ _ H), in_app_iff, in_map_iff.
  assert (L : forall i, (i < length chosen)%nat -> nth i (map (fun i => Z.of_nat i * 50) (seq 1 (length chosen))) 0 = 50 * (Z.of_nat i + 1)).
  { intros i Hi. rewrite (nth_indep _ 0 (Z.of_nat 0 * 50)) by (rewrite map_length, seq_length; exact Hi). rewrite (map_nth (fun i => Z.of_nat i * 50)), seq_nth by exact Hi. lia. }
  split; (intros [K|(i & A & B)]; [left; exact K|right; exists i]).
  - apply in_seq in B. rewrite L in A by lia. split; [lia|congruence].
  - rewrite L by exact A. split; [congruence|]. apply in_seq. lia.
Qed.
Section Roads.
  Variables (nodes : list nat) (P H : nat) (count : nat -> nat -> nat) (pick : nat -> nat -> nat -> nat).
  Hypothesis HP : (1 <= P)%nat.
  Hypothesis Hc : fair_count count.
  Hypothesis Hp : fair_choice pick.
  Definition entry_ok (k : nat) (e : (nat * nat * Z) * Z) : Prop :=
    let '((u, v, w), b) := e in (u < k)%nat /\
    ((u < P)%nat /\ (u < v < P)%nat /\ b = Z.of_nat (length nodes) \/ (P <= u)%nat /\ (v < u)%nat /\ b = 2 * Z.of_nat (length nodes)) /\ exists i, 1 <= i /\ w = 50 * i.
  Definition inv (k : nat) (roads : list ((nat * nat * Z) * Z)) : Prop :=
    (forall e, In e roads -> entry_ok k e) /\ (forall u, (u < k)%nat -> u <> (P - 1)%nat -> exists v w b, In ((u, v, w), b) roads) /\
    (distinct_choice pick -> NoDup (map (fun e => fst (fst e)) roads)).
  Lemma choices_in x l k y : (0 < length l)%nat -> In y (choices pick x l k) -> In y l.
  Proof. intros Hl K. unfold choices in K. apply in_map_iff in K as (j & <- & _). apply nth_In, Hp, Hl. Qed.
  Lemma choices_length x l k : length (choices pick x l k) = k.
  Proof. unfold choices. rewrite map_length, seq_length. reflexivity. Qed.
  Lemma choices_nodup x l k : NoDup l -> (k <= length l)%nat -> distinct_choice pick -> NoDup (choices pick x l k).
  Proof.
    intros N Hk D. unfold choices. apply (NoDup_nth _ 0%nat). rewrite map_length, seq_length. intros i j Hi Hj E.
    assert (Q : forall i, (i < k)%nat -> nth i (map (fun j => nth (pick x j (length l)) l 0%nat) (seq 0 k)) 0%nat = nth (pick x i (length l)) l 0%nat).
    { intros a Ha. rewrite (nth_indep _ 0%nat (nth (pick x 0 (length l)) l 0%nat)) by (rewrite map_length, seq_length; exact Ha). rewrite (map_nth (fun j => nth (pick x j (length l)) l 0%nat) (seq 0 k) 0%nat a), seq_nth by exact Ha. reflexivity. }
    rewrite !Q in E by assumption. apply (D x (length l)); try lia. apply (proj1 (NoDup_nth l 0%nat) N); [apply Hp; lia|apply Hp; lia|exact E].
  Qed.
  Lemma add_inv k roads chosen b : inv k roads -> (0 < length chosen)%nat -> (distinct_choice pick -> NoDup chosen) ->
    (forall y, In y chosen -> (k < P)%nat /\ (k < y < P)%nat /\ b = Z.of_nat (length nodes) \/ (P <= k)%nat /\ (y < k)%nat /\ b = 2 * Z.of_nat (length nodes)) ->
    inv (S k) (add_roads roads k chosen b).
  Proof.
    intros (I1 & I2 & I3) Hl Hd Hy.
    assert (D : forall y, In y chosen -> ~ In y (neighbours roads k)).
    { intros y Hi K. apply Hy in Hi. apply neighbours_in in K as (w & b0 & [K|K]); apply I1 in K; cbn in K; destruct K as (K1 & K2 & _); lia. }
    assert (A := add_roads_in roads k chosen b D). split; [|split].
    - intros e He. apply A in He as [He|(i & Hi & ->)].
      + apply I1 in He. destruct e as [[[u v] w] b']. cbn in *. destruct He as (K1 & K). split; [lia|exact K].
      + cbn. split; [lia|]. split; [|exists (Z.of_nat i + 1); lia]. apply (Hy (nth i chosen 0%nat)). apply nth_In, Hi.
    - intros u Hu Hn. destruct (Nat.eq_dec u k) as [->|E].
      + exists (nth 0 chosen 0%nat), (50 * (Z.of_nat 0 + 1)), b. apply A. right. exists 0%nat. auto.
      + destruct (I2 u ltac:(lia) Hn) as (v & w & b' & K). exists v, w, b'. apply A. left. exact K.
    - intros Dc. specialize (I3 Dc). specialize (Hd Dc). unfold add_roads. rewrite (not_yet_all _ _ D), map_app, map_map. cbn [fst].
      assert (Q : map (fun i => (k, nth i chosen 0%nat)) (seq 0 (length chosen)) = map (pair k) chosen).
      { clear. assert (G : forall l', map (fun i => (k, nth i (l' ++ chosen) 0%nat)) (seq (length l') (length chosen)) = map (pair k) chosen).
        { induction chosen as [|x c IH]; intros l'; [reflexivity|]. cbn [length seq map]. rewrite app_nth2, Nat.sub_diag by lia. cbn [nth]. f_equal.
          specialize (IH (l' ++ [x])). rewrite app_length, <- app_assoc in IH. cbn [length app] in IH. rewrite Nat.add_1_r in IH. exact IH. }
        apply (G []). }
      rewrite Q. assert (N2 : NoDup (map (pair k) chosen)) by (apply FinFun.Injective_map_NoDup; [intros a c E; congruence|exact Hd]).
      assert (S1 : forall x, In x (map (fun e => fst (fst e)) roads) -> ~ In x (map (pair k) chosen)).
      { intros x K K'. apply in_map_iff in K as ([[[u v] w] b'] & <- & K). apply I1 in K. cbn in K. apply in_map_iff in K' as (y & E & _). cbn in E. injection E as -> _. lia. }
      revert I3 S1. generalize (map (fun e : nat * nat * Z * Z => fst (fst e)) roads) as l. induction l as [|x l IH]; intros N S1; [exact N2|]. apply NoDup_cons_iff in N as [N0 N1]. cbn. constructor.
      + intros K. apply in_app_or in K as [K|K]; [contradiction|]. apply (S1 x (in_eq _ _) K).
      + apply IH; [exact N1|]. intros y Ky. apply S1. right. exact Ky.
  Qed.
  Lemma platforms_inv : inv P (fold_left (platform_roads nodes P count pick) (seq 0 P) []).
  Proof.
    assert (G : forall m k roads, (k + m = P)%nat -> inv k roads -> inv P (fold_left (platform_roads nodes P count pick) (seq k m) roads)).
    { induction m as [|m IH]; intros k roads E I; cbn [seq fold_left]; [rewrite Nat.add_0_r in E; subst; exact I|]. apply IH; [lia|]. unfold platform_roads.
      destruct (Nat.eqb_spec k (P - 1)) as [Ek|Ek].
      - destruct I as (I1 & I2 & I3). split; [|split].
        + intros e He. apply I1 in He. destruct e as [[[u v] w] b']. cbn in *. destruct He as (K1 & K). split; [lia|exact K].
        + intros u Hu Hn. apply I2; lia.
        + exact I3.
      - set (rest := skipn (k + 1) (seq 0 P)).
        assert (Lr : length rest = (P - (k + 1))%nat) by (unfold rest; rewrite skipn_length, seq_length; reflexivity).
        assert (Hr : NoDup rest /\ forall y, In y rest -> (k < y < P)%nat).
        { unfold rest. assert (Es : skipn (k + 1) (seq 0 P) = seq (k + 1) (P - (k + 1))).
          { replace P with (k + 1 + (P - (k + 1)))%nat at 1 by lia. rewrite seq_app, skipn_app, seq_length, Nat.sub_diag. cbn [skipn Nat.add]. rewrite skipn_all2 by (rewrite seq_length; lia). reflexivity. }
          rewrite Es. split; [apply seq_NoDup|]. intros y Hy. apply in_seq in Hy. lia. }
        destruct Hr as [Nr Hr].
        assert (H3 : (1 <= ceil_third (length rest))%nat) by (unfold ceil_third; apply Nat.div_le_lower_bound; lia).
        assert (H4 : (ceil_third (length rest) <= length rest)%nat) by (unfold ceil_third; apply Nat.div_le_upper_bound; lia).
        assert (C := Hc k _ H3). apply add_inv; [exact I|rewrite choices_length; lia|apply choices_nodup; [exact Nr|lia]|].
        intros y Hy. left. apply choices_in in Hy; [|lia]. apply Hr in Hy. split; [lia|]. split; [lia|reflexivity]. }
    apply (G P 0%nat []); [reflexivity|]. split; [intros e []|split; [intros u Hu; lia|intros _; constructor]].
  Qed.
  Lemma all_inv roads : inv P roads -> inv (P + H) (fold_left (holder_roads nodes P count pick) (seq 0 H) roads).
  Proof.
    assert (G : forall m k roads, (k + m = H)%nat -> inv (P + k) roads -> inv (P + H) (fold_left (holder_roads nodes P count pick) (seq k m) roads)).
    { induction m as [|m IH]; intros k rs E I; cbn [seq fold_left]; [rewrite Nat.add_0_r in E; subst; exact I|]. apply IH; [lia|]. unfold holder_roads.
      set (others := map (fun j => (P + j)%nat) (seq 0 k) ++ seq 0 P).
      assert (Lo : length others = (k + P)%nat) by (unfold others; rewrite app_length, map_length, !seq_length; reflexivity).
      assert (Ho : forall y, In y others -> (y < P + k)%nat).
      { intros y Hy. unfold others in Hy. apply in_app_or in Hy as [Hy|Hy]; [apply in_map_iff in Hy as (j & <- & Hy)|]; apply in_seq in Hy; lia. }
      assert (No : NoDup others).
      { apply (Permutation_NoDup (l := seq 0 (P + k))); [|apply seq_NoDup]. rewrite seq_app, Permutation_app_comm. unfold others. apply Permutation_app_tail. cbn [Nat.add].
        replace (map (fun j => (P + j)%nat) (seq 0 k)) with (seq P k); [reflexivity|]. clear. revert P. induction k as [|k IH]; intros P; [reflexivity|]. cbn [seq map]. rewrite Nat.add_0_r. f_equal. rewrite (IH (S P)), <- seq_shift, map_map. apply map_ext. intros; lia. }
      assert (C := Hc (P + k)%nat (length others) ltac:(lia)). replace (P + S k)%nat with (S (P + k)) by lia. apply add_inv; [exact I|rewrite choices_length; lia|apply choices_nodup; [exact No|lia]|].
      intros y Hy. right. apply choices_in in Hy; [|lia]. apply Ho in Hy. split; [lia|]. split; [lia|unfold vertex_count; lia]. }
    intros I. apply (G H 0%nat roads); [reflexivity|]. rewrite Nat.add_0_r. exact I.
  Qed.
  (** *** Connection *)
  Definition conn (joins : list (nat * nat * Z)) (u v : nat) : Prop := u = v \/ exists ids d, route joins (fun _ => True) u v ids d.
  Lemma route_trans joins A u v ids d : route joins A u v ids d -> forall x ids' d', route joins A v x ids' d' -> route joins A u x (ids ++ ids') (d + d').
  Proof. induction 1 as [k u v w Hk Hj|k u m v w ids d Hk Hj Hr IH]; intros x ids' d' R; cbn [app]; [constructor 2 with v; assumption|]. rewrite <- Z.add_assoc. constructor 2 with m; auto. Qed.
  Lemma route_back joins A u v ids d : route joins A u v ids d -> exists ids', route joins A v u ids' d.
  Proof.
    induction 1 as [k u v w Hk Hj|k u m v w ids d Hk Hj Hr (ids' & IH)]; [exists [k]; constructor; [exact Hk|apply joined_sym, Hj]|].
    exists (ids' ++ [k]). rewrite Z.add_comm. eapply route_snoc; [exact IH|exact Hk|apply joined_sym, Hj].
  Qed.
  Lemma conn_trans joins u v x : conn joins u v -> conn joins v x -> conn joins u x.
  Proof. intros [->|(i & d & A)] [<-|(i' & d' & B)]; [left; reflexivity|right; eauto|right; eauto|right]. exists (i ++ i'), (d + d'). eapply route_trans; eauto. Qed.
  Lemma conn_sym joins u v : conn joins u v -> conn joins v u.
  Proof. intros [->|(i & d & A)]; [left; reflexivity|right]. apply route_back in A as (i' & A). eauto. Qed.
  Lemma entry_conn (roads : list ((nat * nat * Z) * Z)) u v w b : In ((u, v, w), b) roads -> conn (map fst roads) u v.
  Proof. intros K. right. apply (in_map fst) in K. apply In_nth_error in K as (k & K). exists [k], w. constructor; [exact I|left; exact K]. Qed.
  Lemma inv_conn k roads : inv k roads -> (P <= k)%nat -> forall u, (u < k)%nat -> conn (map fst roads) u (P - 1).
  Proof.
    intros (I1 & I2 & _) Hk.
    assert (A : forall m u, (P - 1 - u <= m)%nat -> (u < P)%nat -> conn (map fst roads) u (P - 1)).
    { induction m as [|m IH]; intros u Hm Hu.
      - left. lia.
      - destruct (Nat.eq_dec u (P - 1)) as [->|E]; [left; reflexivity|]. destruct (I2 u ltac:(lia) E) as (v & w & b & K).
        assert (K' := I1 _ K). cbn in K'. apply conn_trans with v; [eapply entry_conn; exact K|]. apply IH; lia. }
    intros u. induction u as [u IH] using (well_founded_induction lt_wf). intros Hu. destruct (Nat.lt_ge_cases u P) as [L|L]; [apply (A (P - 1 - u)%nat u); lia|].
    destruct (I2 u Hu ltac:(lia)) as (v & w & b & K). assert (K' := I1 _ K). cbn in K'. apply conn_trans with v; [eapply entry_conn; exact K|]. apply IH; lia.
  Qed.
  Lemma inv_good roads : (1 <= H)%nat -> inv (P + H) roads -> forall st wk hd, good_site nodes P H (Site roads st wk hd).
  Proof.
    intros HH I st wk hd. assert (C := inv_conn _ _ I ltac:(lia)). destruct I as (I1 & I2 & _).
    assert (Cn : forall u v, (u < P + H)%nat -> (v < P + H)%nat -> u <> v -> exists ids d, route (map fst roads) (fun _ => True) u v ids d).
    { intros u v Hu Hv N. destruct (conn_trans _ u (P - 1) v (C u Hu) (conn_sym _ _ _ (C v Hv))) as [E|E]; [contradiction|exact E]. }
    constructor; unfold land; cbn [st_roads].
    - intros u v w b K. apply I1 in K. unfold entry_ok in K. destruct K as (K1 & K2 & K3). split; [lia|]. split; [lia|]. split; [|exact K3]. lia.
    - exact Cn.
    - apply routes_built. intros u Hu. set (v := if Nat.eqb u 0 then 1%nat else 0%nat). assert (Nv : u <> v) by (unfold v; destruct (Nat.eqb_spec u 0); lia).
      assert (Hv : (v < P + H)%nat) by (unfold v; destruct (Nat.eqb_spec u 0); lia).
      destruct (Cn u v Hu Hv Nv) as (ids & d & R). inversion R; subst; eauto.
  Qed.
  Lemma inv_simple roads : inv (P + H) roads -> distinct_choice pick -> good_roads (P + H) (map fst roads).
  Proof.
    intros (I1 & _ & I3) D. specialize (I3 D).
    assert (J : forall k u v w, joined (map fst roads) k u v w -> exists b, In ((u, v, w), b) roads /\ nth_error (map (fun e => fst (fst e)) roads) k = Some (u, v) \/ In ((v, u, w), b) roads /\ nth_error (map (fun e => fst (fst e)) roads) k = Some (v, u)).
    { intros k u v w [E|E]; rewrite nth_error_map in E; destruct (nth_error roads k) as [[e b]|] eqn:En; try discriminate; cbn in E; injection E as ->; exists b; [left|right]; (split; [apply nth_error_In in En; exact En|rewrite nth_error_map, En; reflexivity]). }
    constructor.
    - intros k u v w K. apply J in K as (b & [[K _]|[K _]]); apply I1 in K; unfold entry_ok in K; lia.
    - intros k u v w K. apply J in K as (b & [[K _]|[K _]]); apply I1 in K; unfold entry_ok in K; destruct K as (_ & _ & i & ? & ->); lia.
    - intros k u v w K. apply J in K as (b & [[K _]|[K _]]); apply I1 in K; unfold entry_ok in K; lia.
    - intros k k' u v w w' K K'. apply J in K as (b & K). apply J in K' as (b' & K').
      assert (U : nth_error (map (fun e => fst (fst e)) roads) k = nth_error (map (fun e => fst (fst e)) roads) k' /\ nth_error (map (fun e => fst (fst e)) roads) k <> None).
      { destruct K as [[K E]|[K E]], K' as [[K' E']|[K' E']]; rewrite E, E'; (split; [|discriminate]); try reflexivity; exfalso; apply I1 in K; apply I1 in K'; unfold entry_ok in K, K'; lia. }
      destruct U as [U1 U2]. apply nth_error_Some in U2. apply (proj1 (NoDup_nth_error _) I3 k k' U2 U1).
  Qed.
End Roads.

(** ** Works *)
Section Works.
  Variables (g : graph) (nodes : list nat).
  Hypothesis Hnd : NoDup nodes.
  Hypothesis Hcl : forall e, In e (g_edges g) -> In (e_from e) nodes /\ In (e_to e) nodes.
  Hypothesis Hwf : chains_wf g.
  Lemma heads_in h : In h (heads g nodes) <-> is_head g nodes h.
  Proof.
    unfold heads, is_head. rewrite filter_In. split; intros [A B]; split; auto.
    - apply parent_none. destruct (inseparable_parent g h); [discriminate|reflexivity].
    - apply parent_none in B. rewrite B. reflexivity.
  Qed.
  Lemma heads_nodup : NoDup (heads g nodes).
  Proof. apply NoDup_filter, Hnd. Qed.
  Lemma in_chain_nodes h v : In h nodes -> in_chain g h v -> In v nodes.
  Proof. intros Hh K. apply clos_rt_rtn1 in K. destruct K as [|y z (e & He & _ & _ & <-) _]; [exact Hh|]. apply (Hcl e He). Qed.
  Lemma place_all_made l : NoDup (map fst l) -> (forall h, In h (map fst l) -> is_head g nodes h) ->
    exists works, place_all g l = Some works /\ NoDup (map fst works) /\
      forall v p, In (v, p) works <-> exists h, In (h, p) l /\ in_chain g h v /\ u_service (g_unit g h) = false.
  Proof.
    induction l as [|[h p] l IH]; intros N Hh; cbn [place_all].
    - exists []. split; [reflexivity|]. split; [constructor|]. intros v p. split; [intros []|intros (h & [] & _)].
    - cbn in N. apply NoDup_cons_iff in N as [N1 N2]. destruct IH as (works & -> & A & B); [exact N2|intros x Hx; apply Hh; right; exact Hx|].
      assert (Hd := Hh h (in_eq _ _)). unfold place. cbn [fst snd]. destruct (u_service (g_unit g h)) eqn:Es.
      + exists works. split; [reflexivity|]. split; [exact A|]. intros v q. rewrite B. split; intros (h0 & K & K').
        * exists h0. split; [right; exact K|exact K'].
        * destruct K as [K|K]; [injection K as <- <-; destruct K' as [_ K']; congruence|]. exists h0. auto.
      + destruct (inseparable_chain_correct g h Hwf (proj2 Hd)) as (c & -> & Nc & Ic & _). cbn [option_map].
        exists (map (fun c0 => (c0, p)) c ++ works). split; [reflexivity|].
        assert (I1 : forall v, In v (map fst works) -> ~ In v c).
        { intros v K Kc. apply in_map_iff in K as ([v' q] & E & K). cbn in E. subst v'. apply B in K as (h0 & K1 & K2 & _). apply Ic in Kc.
          assert (Hi : In h0 (map fst l)) by (apply (in_map fst) in K1; exact K1).
          assert (E : h0 = h) by (apply (head_unique g Hwf h0 h v); auto; [apply (Hh h0 (in_cons _ _ _ Hi))|apply Hd]). subst. contradiction. }
        split.
        * rewrite map_app, map_map. cbn [fst]. rewrite map_id. clear Ic. induction c as [|x c IHc]; [exact A|]. apply NoDup_cons_iff in Nc as [C1 C2]. cbn. constructor.
          -- intros K. apply in_app_or in K as [K|K]; [contradiction|]. apply (I1 x K). left. reflexivity.
          -- apply IHc; [exact C2|]. intros v K Kc. apply (I1 v K). right. exact Kc.
        * intros v q. rewrite in_app_iff, in_map_iff, B. split.
          -- intros [(x & E & K)|(h0 & K)]; [injection E as -> ->; exists h; split; [left; reflexivity|]; split; [apply Ic, K|exact Es]|]. exists h0. split; [right; apply K|apply K].
          -- intros (h0 & [K|K] & K1 & K2); [injection K as -> ->; left; exists v; split; [reflexivity|apply Ic, K1]|]. right. exists h0. auto.
  Qed.
  Variables (P : nat) (shuffle : list nat -> list nat).
  Hypothesis HP : (1 <= P)%nat.
  Hypothesis Hs : fair_shuffle shuffle.
  Let tmp := platforms_tmp g nodes P shuffle.
  Let flat := concat (repeat (seq 0 P) (length (heads g nodes) / P)) ++ firstn (length (heads g nodes) mod P) (seq 0 P).
  Lemma flat_facts : length flat = length (heads g nodes) /\ (forall p, In p flat -> (p < P)%nat) /\ forall p, (count_occ Nat.eq_dec flat p <= length (heads g nodes) / P + 1)%nat.
  Proof.
    assert (M : (length (heads g nodes) mod P < P)%nat) by (apply Nat.mod_upper_bound; lia). assert (D := Nat.div_mod (length (heads g nodes)) P ltac:(lia)).
    assert (S1 : forall p l, NoDup l -> (count_occ Nat.eq_dec l p <= 1)%nat) by (intros p l N; apply NoDup_count_occ; exact N).
    assert (R : forall k, length (concat (repeat (seq 0 P) k)) = (k * P)%nat /\ (forall p, In p (concat (repeat (seq 0 P) k)) -> (p < P)%nat) /\ forall p, (count_occ Nat.eq_dec (concat (repeat (seq 0 P) k)) p <= k)%nat).
    { induction k as [|k (A & B & C)]; cbn [repeat concat]; [split; [reflexivity|split; [intros p []|intros p; cbn; lia]]|]. split; [rewrite app_length, seq_length, A; lia|]. split.
      - intros p K. apply in_app_or in K as [K|K]; [apply in_seq in K; lia|apply B, K].
      - intros p. rewrite count_occ_app. specialize (C p). specialize (S1 p (seq 0 P) (seq_NoDup _ _)). lia. }
    destruct (R (length (heads g nodes) / P)%nat) as (A & B & C). unfold flat. split; [|split].
    - rewrite app_length, A, firstn_length_le by (rewrite seq_length; lia). lia.
    - intros p K. apply in_app_or in K as [K|K]; [apply B, K|]. assert (K' : In p (seq 0 P)) by (rewrite <- (firstn_skipn (length (heads g nodes) mod P) (seq 0 P)); apply in_or_app; left; exact K). apply in_seq in K'. lia.
    - intros p. rewrite count_occ_app. specialize (C p). assert (Nf : NoDup (firstn (length (heads g nodes) mod P) (seq 0 P))).
      { assert (N := seq_NoDup P 0). rewrite <- (firstn_skipn (length (heads g nodes) mod P) (seq 0 P)) in N. revert N. generalize (firstn (length (heads g nodes) mod P) (seq 0 P)) as a. intros a. generalize (skipn (length (heads g nodes) mod P) (seq 0 P)) as b. intros b.
        induction a as [|x a IH]; intros N; [constructor|]. cbn in N. apply NoDup_cons_iff in N as [N1 N2]. constructor; [intros K; apply N1, in_or_app; left; exact K|auto]. }
      specialize (S1 p _ Nf). lia.
  Qed.
  Lemma combine_map_fst {A B} (l : list A) (l' : list B) : length l = length l' -> map fst (combine l l') = l /\ map snd (combine l l') = l'.
  Proof. revert l'. induction l as [|x l IH]; intros [|y l'] E; cbn in E; try discriminate; [split; reflexivity|]. destruct (IH l' ltac:(lia)) as [A1 A2]. cbn. rewrite A1, A2. split; reflexivity. Qed.
  Lemma works_placed : exists works, place_all g (combine (heads g nodes) tmp) = Some works /\ placed_once g nodes P works /\
    forall p, (length (heads_on g works p) <= length (heads g nodes) / P + 1)%nat.
  Proof.
    destruct flat_facts as (F1 & F2 & F3). assert (Pm : Permutation tmp flat) by apply Hs.
    assert (Lt : length (heads g nodes) = length tmp) by (rewrite (Permutation_length Pm), F1; reflexivity).
    destruct (combine_map_fst (heads g nodes) tmp Lt) as [C1 C2].
    destruct (place_all_made (combine (heads g nodes) tmp)) as (works & E & N & I); [rewrite C1; apply heads_nodup|rewrite C1; intros h; apply heads_in|].
    assert (Hd : forall h p, In (h, p) (combine (heads g nodes) tmp) -> is_head g nodes h /\ (p < P)%nat).
    { intros h p K. split; [apply heads_in; rewrite <- C1; apply (in_map fst) in K; exact K|]. apply F2, (Permutation_in _ Pm). rewrite <- C2. apply (in_map snd) in K. exact K. }
    exists works. split; [exact E|]. split; [constructor|].
    - exact N.
    - intros v p K. apply I in K as (h & K & K1 & _). destruct (Hd h p K) as [A B]. split; [exact B|]. apply (in_chain_nodes h v (proj1 A) K1).
    - intros v. rewrite in_map_iff. split.
      + intros ([v' p] & Ev & K). cbn in Ev. subst v'. apply I in K as (h & K & K1 & K2). exists h. split; [apply (Hd h p K)|auto].
      + intros (h & A & K1 & K2). apply heads_in in A. rewrite <- C1 in A. apply in_map_iff in A as ([h' p] & Eh & K). cbn in Eh. subst h'. exists (v, p). split; [reflexivity|]. apply I. eauto.
    - intros h v p A K K'. apply I in K' as (h0 & K1 & K2 & K3). destruct (Hd h0 p K1) as [B _]. assert (Eh : h0 = h) by (apply (head_unique g Hwf h0 h v); auto; [apply B|apply A]). subst h0.
      apply I. exists h. split; [exact K1|]. split; [apply rt_refl|exact K3].
    - intros p. apply Nat.le_trans with (length (map fst (filter (fun x => Nat.eqb (snd x) p) (combine (heads g nodes) tmp)))).
      + apply NoDup_incl_length.
        * unfold heads_on. revert N. generalize works as l. induction l as [|x l IH]; intros N; [constructor|]. cbn [map] in N. apply NoDup_cons_iff in N as [N1 N2]. cbn [filter].
          destruct (_ && _); [|auto]. cbn [map]. constructor; [|auto]. intros K. apply N1. apply in_map_iff in K as (y & Ey & K). apply filter_In in K as [K _]. rewrite <- Ey. apply in_map, K.
        * intros h K. unfold heads_on in K. apply in_map_iff in K as ([h' q] & Eh & K). cbn in Eh. subst h'. apply filter_In in K as [K K']. cbn [fst snd] in K'. apply andb_true_iff in K' as [K1 K2]. apply Nat.eqb_eq in K1. subst q.
          apply I in K as (h0 & K3 & K4 & _). destruct (Hd h0 p K3) as [B _].
          assert (Eh : h0 = h). { apply (head_unique g Hwf h0 h h); [apply B| |exact K4|apply rt_refl]. apply parent_none. destruct (inseparable_parent g h); [discriminate|reflexivity]. }
          subst h0. apply in_map_iff. exists (h, p). split; [reflexivity|]. apply filter_In. cbn. rewrite Nat.eqb_refl. auto.
      + rewrite map_length. assert (Q : length (filter (fun x => Nat.eqb (snd x) p) (combine (heads g nodes) tmp)) = count_occ Nat.eq_dec (map snd (combine (heads g nodes) tmp)) p).
        { generalize (combine (heads g nodes) tmp) as l. induction l as [|[a b] l IH]; [reflexivity|]. cbn [filter snd map count_occ]. destruct (Nat.eqb_spec b p), (Nat.eq_dec b p); cbn [length]; congruence. }
        rewrite Q, C2. rewrite (proj1 (Permutation_count_occ Nat.eq_dec tmp flat) Pm). apply F3.
  Qed.
End Works.

(** ** Warehouses *)
Lemma holder_names_all nodes needs H i : (i < H)%nat -> holder_names nodes needs H i = names nodes needs.
Proof.
  intros Hi. unfold holder_names. destruct (max_materials needs nodes) eqn:E; [unfold names; rewrite E; reflexivity|]. clear E p l.
  replace ((i + 1) * length (names nodes needs) - i * length (names nodes needs))%nat with (length (names nodes needs)) by lia.
  unfold sample_materials. generalize (names nodes needs) as l. intros l. revert i Hi. induction H as [|H IH]; intros i Hi; [lia|]. cbn [repeat concat]. destruct i as [|i].
  - cbn [Nat.mul skipn]. rewrite firstn_app, firstn_all, Nat.sub_diag. cbn [firstn]. apply app_nil_r.
  - cbn [Nat.mul]. rewrite skipn_app, skipn_all2 by lia. cbn [app]. replace (length l + i * length l - length l)%nat with (i * length l)%nat by lia. apply IH. lia.
Qed.
Lemma sum_for_le m l c : NoDup (map fst l) -> (forall c', In (m, c') l -> c' <= c) -> 0 <= c -> sum_for m l <= c.
Proof.
  induction l as [|[k v] l IH]; intros N Hc Hc0; cbn [sum_for]; [exact Hc0|]. cbn in N. apply NoDup_cons_iff in N as [N1 N2]. destruct (Nat.eqb_spec k m) as [->|E].
  - assert (Z0 : sum_for m l = 0).
    { clear - N1. induction l as [|[k' v'] l IH]; [reflexivity|]. cbn in *. destruct (Nat.eqb_spec k' m) as [->|]; [exfalso; apply N1; left; reflexivity|]. apply IH. intros K. apply N1. right. exact K. }
    rewrite Z0. specialize (Hc v (in_eq _ _)). lia.
  - rewrite Z.add_0_l. apply IH; auto. intros c' K. apply Hc. right. exact K.
Qed.
Lemma total_le needs nodes m c : (forall n, In n nodes -> NoDup (map fst (needs n))) -> (forall c', needed needs nodes m c' -> c' <= c) -> 0 <= c ->
  total_need needs nodes m <= c * Z.of_nat (length nodes).
Proof.
  intros N Hc H0. assert (K : forall n, In n nodes -> sum_for m (needs n) <= c).
  { intros n Hn. apply sum_for_le; auto. intros c' Hi. apply Hc. exists n. auto. }
  clear N Hc. unfold total_need. induction nodes as [|n l IH]; [cbn; lia|]. cbn [fold_right length]. assert (A := K n (in_eq _ _)). assert (B := IH (fun n Hn => K n (in_cons _ _ _ Hn))). nia.
Qed.
