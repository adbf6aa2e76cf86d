(** C117: merging into a sorted list. *)
From Coq Require Import ZArith List Bool Arith Sorted Lia.
From Verif Require Import SortedListModel.
Import ListNotations.
Local Open Scope Z_scope.

(** ** Specification *)
Section Spec.
  Context {V : Type}.
  (** A sorted list as the library keeps it: no empty bucket, keys in order, the greatest
      keys and the length up to date. *)
  Record well_kept (s : slist V) : Prop := {
    wk_full : Forall (fun b => b <> []) (sl_buckets s);
    wk_maxes : sl_maxes s = map last_key (sl_buckets s);
    wk_sorted : StronglySorted Z.le (map fst (items s));
    wk_len : sl_len s = length (items s) }.
End Spec.

(** ** Lemmas *)
Section Proofs.
  Context {V : Type}.
  Implicit Types (b : list (Z * V)) (s : slist V).
  Lemma sorted_app (l l' : list Z) : StronglySorted Z.le (l ++ l') <-> StronglySorted Z.le l /\ StronglySorted Z.le l' /\ forall x y, In x l -> In y l' -> x <= y.
  Proof.
    induction l as [|a l IH]; cbn [app].
    - split; [intros H; split; [constructor|split; [exact H|intros x y []]]|tauto].
    - split.
      + intros H. inversion H as [|a' l0 H1 H2]; subst. apply IH in H1 as (A & B & C). rewrite Forall_forall in H2. split; [constructor; [exact A|apply Forall_forall; intros x Hx; apply H2, in_or_app; left; exact Hx]|]. split; [exact B|].
        intros x y [<-|Hx] Hy; [apply H2, in_or_app; right; exact Hy|auto].
      + intros (A & B & C). inversion A as [|a' l0 H1 H2]; subst. constructor; [apply IH; split; [exact H1|split; [exact B|intros x y Hx; apply C; right; exact Hx]]|].
        rewrite Forall_forall in *. intros x Hx. apply in_app_or in Hx as [Hx|Hx]; [auto|apply C; [left; reflexivity|exact Hx]].
  Qed.
  Lemma bl_split l k : exists a c, l = a ++ c /\ length a = bisect_left l k /\ (forall x, In x a -> x < k) /\ match c with [] => True | x :: _ => k <= x end.
  Proof.
    induction l as [|x l (a & c & -> & A & B & C)]; [exists [], []; cbn; tauto|]. cbn [bisect_left]. destruct (Z.ltb_spec x k).
    - exists (x :: a), c. split; [reflexivity|]. split; [cbn; congruence|]. split; [intros y [<-|Hy]; auto|exact C].
    - exists [], (x :: a ++ c). split; [reflexivity|]. split; [reflexivity|]. split; [intros y []|exact H].
  Qed.
  Lemma br_split l k : exists a c, l = a ++ c /\ length a = bisect_right l k /\ (forall x, In x a -> x <= k) /\ match c with [] => True | x :: _ => k < x end.
  Proof.
    induction l as [|x l (a & c & -> & A & B & C)]; [exists [], []; cbn; tauto|]. cbn [bisect_right]. destruct (Z.leb_spec x k).
    - exists (x :: a), c. split; [reflexivity|]. split; [cbn; congruence|]. split; [intros y [<-|Hy]; auto|exact C].
    - exists [], (x :: a ++ c). split; [reflexivity|]. split; [reflexivity|]. split; [intros y []|exact H].
  Qed.
  Lemma put_app {A} (a c : list A) y x : put_at (a ++ y :: c) (length a) x = a ++ x :: c.
  Proof. unfold put_at. rewrite firstn_app, firstn_all, Nat.sub_diag. cbn [firstn]. rewrite app_nil_r. f_equal. f_equal. replace (S (length a)) with (length (a ++ [y])) by (rewrite app_length; cbn; lia). replace (a ++ y :: c) with ((a ++ [y]) ++ c) by (rewrite <- app_assoc; reflexivity). rewrite skipn_app, skipn_all, Nat.sub_diag. reflexivity. Qed.
  Lemma insert_app {A} (a c : list A) x : insert_at (a ++ c) (length a) x = a ++ x :: c.
  Proof. unfold insert_at. rewrite firstn_app, firstn_all, Nat.sub_diag, skipn_app, skipn_all, Nat.sub_diag. cbn [firstn skipn]. rewrite app_nil_r. reflexivity. Qed.
  Lemma insert_put {A} (a c : list A) y x z n : n = length a -> insert_at (put_at (a ++ y :: c) n x) (S n) z = a ++ x :: z :: c.
  Proof.
    intros ->. rewrite put_app. replace (a ++ x :: c) with ((a ++ [x]) ++ c) by (rewrite <- app_assoc; reflexivity). replace (S (length a)) with (length (a ++ [x])) by (rewrite app_length; cbn; lia).
    rewrite insert_app, <- app_assoc. reflexivity.
  Qed.
  Lemma last_key_app b k (v : V) : last_key (b ++ [(k, v)]) = k.
  Proof. unfold last_key. rewrite map_app. cbn [map fst]. apply last_last. Qed.
  Lemma last_key_in b : b <> [] -> In (last_key b) (map fst b).
  Proof. intros N. destruct (exists_last N) as (c & [k v] & ->). rewrite last_key_app, map_app. apply in_or_app. right. left. reflexivity. Qed.
  Lemma last_key_max b : b <> [] -> StronglySorted Z.le (map fst b) -> forall x, In x (map fst b) -> x <= last_key b.
  Proof.
    intros N. destruct (exists_last N) as (c & [k v] & ->). rewrite last_key_app, map_app. cbn [map fst]. intros S x Hx. apply sorted_app in S as (_ & _ & S). apply in_app_or in Hx as [Hx|[<-|[]]]; [apply S; [exact Hx|left; reflexivity]|lia].
  Qed.
  Lemma last_key_app2 b c : c <> [] -> last_key (b ++ c) = last_key c.
  Proof. intros N. destruct (exists_last N) as (d & [k v] & ->). rewrite app_assoc, !last_key_app. reflexivity. Qed.
  (** splitting a bucket changes no item *)
  Lemma expand_same load pos s A b B : (1 <= load)%nat -> sl_buckets s = A ++ b :: B -> length A = pos ->
    Forall (fun b => b <> []) (sl_buckets s) -> sl_maxes s = map last_key (sl_buckets s) ->
    Forall (fun b => b <> []) (sl_buckets (expand load pos s)) /\ sl_maxes (expand load pos s) = map last_key (sl_buckets (expand load pos s)) /\ items (expand load pos s) = items s.
  Proof.
    intros HL Es <- F M. unfold expand. rewrite Es, app_nth2, Nat.sub_diag by lia. cbn [nth]. destruct (Nat.ltb_spec (2 * load) (length b)) as [Q|Q].
    - cbn [sl_buckets sl_maxes]. rewrite M, Es, map_app. cbn [map]. rewrite (insert_put A B b _ _ _ eq_refl), (insert_put (map last_key A)) by (rewrite map_length; reflexivity). split; [|split].
      + rewrite Es in F. apply Forall_app in F as [F1 F2]. inversion F2; subst. apply Forall_app. split; [exact F1|]. constructor; [|constructor; [|assumption]].
        * intros E. apply (f_equal (@length _)) in E. rewrite firstn_length_le in E by lia. cbn in E. lia.
        * intros E. apply (f_equal (@length _)) in E. rewrite skipn_length in E. cbn in E. lia.
      + rewrite !map_app. cbn [map]. reflexivity.
      + unfold items. cbn [sl_buckets]. rewrite Es, !concat_app. cbn [concat]. rewrite (app_assoc (firstn load b)), firstn_skipn. reflexivity.
    - auto.
  Qed.

  (** ** C117 *)
  (** [merge] keeps the list sorted. If some item is stored under the key of [old], one such item is
      replaced by its merge with the value, in its place; otherwise the value is added under
      that key. *)
  Theorem merge_outcome load key value merger s : (1 <= load)%nat -> well_kept s ->
    well_kept (merge load key value merger s) /\
    ((exists a v c, items s = a ++ (key, v) :: c /\ items (merge load key value merger s) = a ++ (key, merger v value) :: c) \/
     (~ In key (map fst (items s)) /\ exists a c, items s = a ++ c /\ items (merge load key value merger s) = a ++ (key, value) :: c)).
  Proof.
    intros HL [F M S L].
    assert (Ins : forall A b B c d, sl_buckets s = A ++ b :: B -> b = c ++ d -> (forall x, In x (map fst (concat A ++ c)) -> x < key) -> (forall x, In x (map fst (d ++ concat B)) -> key < x) ->
      (forall m, m = map last_key (A ++ (c ++ (key, value) :: d) :: B) ->
       let s' := expand load (length A) (SL (A ++ (c ++ (key, value) :: d) :: B) m (sl_len s)) in
       well_kept (SL (sl_buckets s') (sl_maxes s') (Datatypes.S (sl_len s))) /\ ~ In key (map fst (items s)) /\ exists a c0, items s = a ++ c0 /\ items (SL (sl_buckets s') (sl_maxes s') (Datatypes.S (sl_len s))) = a ++ (key, value) :: c0)).
    { intros A b B c d Eb -> H1 H2 m Em s'. assert (Ei : items s = (concat A ++ c) ++ (d ++ concat B)) by (unfold items; rewrite Eb, concat_app; cbn [concat]; rewrite <- !app_assoc; reflexivity).
      destruct (expand_same load (length A) (SL (A ++ (c ++ (key, value) :: d) :: B) m (sl_len s)) A (c ++ (key, value) :: d) B HL eq_refl eq_refl) as (X1 & X2 & X3).
      - cbn [sl_buckets]. rewrite Eb in F. apply Forall_app in F as [F1 F2]. inversion F2; subst. apply Forall_app. split; [exact F1|constructor; [destruct c; discriminate|assumption]].
      - exact Em.
      - fold s' in X1, X2, X3. assert (E' : items s' = (concat A ++ c) ++ (key, value) :: (d ++ concat B)) by (rewrite X3; unfold items; cbn [sl_buckets]; rewrite concat_app; cbn [concat]; rewrite <- !app_assoc; reflexivity).
        assert (E2 : items (SL (sl_buckets s') (sl_maxes s') (Datatypes.S (sl_len s))) = items s') by reflexivity. split; [|split].
        + constructor; cbn [sl_buckets sl_maxes sl_len]; [exact X1|exact X2| |].
          * rewrite E2, E', map_app. cbn [map fst]. rewrite Ei, map_app in S. apply sorted_app in S as (S1 & S2 & S3). apply sorted_app. split; [exact S1|]. split.
            -- constructor; [exact S2|]. apply Forall_forall. intros x Hx. apply H2 in Hx. lia.
            -- intros x y Hx [<-|Hy]; [apply H1 in Hx; lia|auto].
          * rewrite E2, E', L, Ei, !app_length. cbn [length]. rewrite !app_length. lia.
        + rewrite Ei, map_app. intros K. apply in_app_or in K as [K|K]; [apply H1 in K|apply H2 in K]; lia.
        + exists (concat A ++ c), (d ++ concat B). split; [exact Ei|]. rewrite E2. exact E'. }
    assert (Sb : forall A b B, sl_buckets s = A ++ b :: B -> b <> [] /\ StronglySorted Z.le (map fst b) /\ StronglySorted Z.le (map fst (concat A)) /\ (forall x y, In x (map fst (concat A)) -> In y (map fst b) -> x <= y) /\ forall x y, In x (map fst b) -> In y (map fst (concat B)) -> x <= y).
    { intros A b B E. rewrite E in F. apply Forall_app in F as [_ F2]. inversion F2; subst. split; [assumption|]. unfold items in S. rewrite E, concat_app in S. cbn [concat] in S. rewrite !map_app in S.
      apply sorted_app in S as (S1 & S2 & S3). apply sorted_app in S2 as (S4 & S5 & S6). split; [exact S4|]. split; [exact S1|]. split; [intros x y Hx Hy; apply S3; [exact Hx|apply in_or_app; left; exact Hy]|exact S6]. }
    (* the buckets left of the position hold smaller keys *)
    assert (Small : forall A B, sl_buckets s = A ++ B -> (forall x, In x (map last_key A) -> x < key) -> forall x, In x (map fst (concat A)) -> x < key).
    { intros A B E H x Hx. apply in_map_iff in Hx as (y & <- & Hy). apply in_concat in Hy as (b & Hb & Hy). assert (Q := H _ (in_map last_key _ _ Hb)). apply in_split in Hb as (A1 & A2 & ->).
      destruct (Sb A1 b (A2 ++ B)) as (N & Sr & _); [rewrite E, <- app_assoc; reflexivity|]. assert (Q' := last_key_max b N Sr (fst y) (in_map fst _ _ Hy)). lia. }
    unfold merge. destruct (sl_maxes s) as [|m0 ms] eqn:Em.
    - (* the empty list *)
      assert (Eb : sl_buckets s = []) by (destruct (sl_buckets s); [reflexivity|discriminate]). rewrite Eb. cbn [app]. assert (Ei : items s = []) by (unfold items; rewrite Eb; reflexivity). split.
      + constructor; cbn; [repeat constructor; discriminate|reflexivity|repeat constructor|rewrite L, Ei; reflexivity].
      + right. rewrite Ei. split; [intros []|]. exists [], []. split; reflexivity.
    - cbv beta iota. rewrite <- Em. assert (Nm : sl_maxes s <> []) by (rewrite Em; discriminate). rewrite <- Em in M. clear m0 ms Em. destruct (bl_split (sl_maxes s) key) as (ma & mc & E1 & E2 & E3 & E4). rewrite <- E2.
      assert (Sp : exists A B, sl_buckets s = A ++ B /\ map last_key A = ma /\ map last_key B = mc).
      { rewrite M in E1. apply map_eq_app in E1 as (A & B & X & Y & Z0). eauto. }
      destruct Sp as (A & B & Eb & <- & <-). assert (Lm : length (sl_maxes s) = (length A + length B)%nat) by (rewrite E1, app_length, !map_length; reflexivity). rewrite Lm, map_length.
      destruct (Nat.eqb_spec (length A) (length A + length B)) as [Q|Q].
      + (* beyond all keys *)
        assert (EB : B = []) by (destruct B; [reflexivity|cbn in Q; lia]). subst B. cbn [map] in E1. rewrite app_nil_r in Eb, E1.
        destruct A as [|a0 A0 _] using rev_ind; [exfalso; apply Nm; exact E1|].
        destruct (Sb A0 a0 [] Eb) as (N0 & S0 & _). destruct (exists_last N0) as (c & [k v] & Ec).
        assert (Hk : last_key a0 < key) by (apply E3; rewrite map_app; apply in_or_app; right; left; reflexivity). rewrite Ec, last_key_app in Hk.
        replace (length (A0 ++ [a0]) - 1)%nat with (length A0) by (rewrite app_length; cbn; lia). rewrite Eb, app_nth2, Nat.sub_diag by lia. cbn [nth]. assert (Er : rev a0 = (k, v) :: rev c) by (rewrite Ec, rev_app_distr; reflexivity). rewrite Er.
        destruct (Z.eqb_spec k key) as [Ek|_]; [lia|]. rewrite put_app. rewrite E1, map_app. cbn [map]. assert (Pm : put_at (map last_key A0 ++ [last_key a0]) (length A0) key = map last_key A0 ++ [key]) by (rewrite <- (map_length last_key A0); apply put_app). rewrite Pm.
        assert (X := Ins A0 a0 [] a0 [] Eb (eq_sym (app_nil_r a0))). destruct X with (m := map last_key A0 ++ [key]) as (X1 & X2 & X3).
        * rewrite <- (app_nil_r a0), <- (app_nil_r (concat A0 ++ a0 ++ [])). intros x Hx. apply (Small (A0 ++ [a0]) []); [rewrite app_nil_r; exact Eb|exact E3|]. rewrite concat_app. cbn [concat]. rewrite !app_nil_r in *. exact Hx.
        * intros x [].
        * rewrite map_app. cbn [map]. rewrite last_key_app. reflexivity.
        * split; [exact X1|]. right. split; [exact X2|exact X3].
      + (* inside *)
        destruct B as [|b B]; [cbn in Q; lia|]. cbn [map] in E4. destruct (Sb A b B Eb) as (N0 & S0 & SA & SAb & SbB).
        rewrite Eb, app_nth2, Nat.sub_diag by lia. cbn [nth]. destruct (br_split (map fst b) key) as (kc & kd & F1 & F2 & F3 & F4).
        apply map_eq_app in F1 as (c & d & Ebc & <- & <-). rewrite map_length in F2. rewrite <- F2.
        assert (HA : forall x, In x (map fst (concat A)) -> x < key) by (apply (Small A (b :: B) Eb E3)).
        assert (Hd : forall x, In x (map fst d) -> key < x).
        { rewrite Ebc, map_app in S0. apply sorted_app in S0 as (_ & S0 & _). destruct d as [|[k0 v0] d]; [intros x []|]. cbn [map fst] in *. inversion S0 as [|k1 l1 T1 T2]; subst. rewrite Forall_forall in T2. intros x [<-|Hx]; [exact F4|]. apply T2 in Hx. lia. }
        assert (HB : d <> [] -> forall x, In x (map fst (d ++ concat B)) -> key < x).
        { intros Nd x Hx. rewrite map_app in Hx. apply in_app_or in Hx as [Hx|Hx]; [auto|]. destruct d as [|[k0 v0] d]; [congruence|]. assert (T := Hd k0 (or_introl eq_refl)). assert (T' : k0 <= x); [|lia]. apply SbB; [|exact Hx]. rewrite Ebc, map_app. apply in_or_app. right. left. reflexivity. }
        assert (Ins' : d <> [] -> (forall x, In x (map fst c) -> x < key) ->
          let s' := expand load (length A) (SL (put_at (A ++ b :: B) (length A) (insert_at b (length c) (key, value))) (sl_maxes s) (sl_len s)) in
          well_kept (SL (sl_buckets s') (sl_maxes s') (Datatypes.S (sl_len s))) /\ ~ In key (map fst (items s)) /\ exists a c0, items s = a ++ c0 /\ items (SL (sl_buckets s') (sl_maxes s') (Datatypes.S (sl_len s))) = a ++ (key, value) :: c0).
        { intros Nd Hc. rewrite put_app, Ebc, insert_app. apply (Ins A b B c d Eb Ebc); [|apply HB, Nd|].
          - intros x Hx. rewrite map_app in Hx. apply in_app_or in Hx as [Hx|Hx]; auto.
          - rewrite M, Eb, !map_app. cbn [map]. f_equal. f_equal. rewrite Ebc. rewrite last_key_app2 by exact Nd. change ((key, value) :: d) with ([(key, value)] ++ d). rewrite app_assoc, last_key_app2 by exact Nd. reflexivity. }
        destruct c as [|x0 c0 _] using rev_ind.
        * cbn [length Nat.eqb] in *. assert (Nd : d <> []) by (cbn in Ebc; congruence). destruct (Ins' Nd) as (X1 & X2 & X3); [intros x []|].
          destruct (nth_error b (0 - 1)) as [[k v]|]; (split; [exact X1|right; split; [exact X2|exact X3]]).
        * destruct x0 as [k v]. rewrite app_length. cbn [length]. replace (length c0 + 1 - 1)%nat with (length c0) by lia.
          assert (En : nth_error b (length c0) = Some (k, v)) by (rewrite Ebc, <- app_assoc, nth_error_app2, Nat.sub_diag by lia; reflexivity). rewrite En. destruct (Nat.eqb_spec (length c0 + 1) 0) as [Z0|_]; [lia|].
          destruct (Z.eqb_spec k key) as [Ek|Ek].
          -- subst k. rewrite put_app. assert (Ep : put_at b (length c0) (key, merger v value) = c0 ++ (key, merger v value) :: d) by (rewrite Ebc, <- app_assoc; cbn [app]; apply put_app). rewrite Ep.
             assert (I1 : items s = (concat A ++ c0) ++ (key, v) :: (d ++ concat B)) by (unfold items; rewrite Eb, concat_app; cbn [concat]; rewrite Ebc, <- !app_assoc; reflexivity).
             assert (I2 : items (SL (A ++ (c0 ++ (key, merger v value) :: d) :: B) (sl_maxes s) (sl_len s)) = (concat A ++ c0) ++ (key, merger v value) :: (d ++ concat B)) by (unfold items; cbn [sl_buckets]; rewrite concat_app; cbn [concat]; rewrite <- !app_assoc; reflexivity).
             split; [|left; exists (concat A ++ c0), v, (d ++ concat B); split; [exact I1|exact I2]]. constructor; cbn [sl_buckets sl_maxes sl_len].
             ++ rewrite Eb in F. apply Forall_app in F as [G1 G2]. inversion G2; subst. apply Forall_app. split; [exact G1|constructor; [destruct c0; discriminate|assumption]].
             ++ rewrite M, Eb, !map_app. cbn [map]. f_equal. f_equal. rewrite Ebc. unfold last_key. rewrite !map_app. cbn [map fst]. rewrite <- app_assoc. reflexivity.
             ++ rewrite I2. rewrite I1 in S. rewrite map_app in *. cbn [map fst] in *. exact S.
             ++ rewrite I2, L, I1, !app_length. cbn [length]. reflexivity.
          -- assert (Hk : k < key) by (assert (k <= key); [apply F3; rewrite map_app; apply in_or_app; right; left; reflexivity|lia]).
             assert (Nd : d <> []) by (intros ->; rewrite app_nil_r in Ebc; rewrite Ebc, last_key_app in E4; lia).
             rewrite app_length in Ins'. cbn [length] in Ins'. destruct (Ins' Nd) as (X1 & X2 & X3).
             ++ intros x Hx. rewrite map_app in Hx. apply in_app_or in Hx as [Hx|[<-|[]]]; [|exact Hk]. rewrite Ebc, !map_app in S0. apply sorted_app in S0 as (S0 & _). apply sorted_app in S0 as (_ & _ & S0). assert (x <= k); [apply S0; [exact Hx|left; reflexivity]|lia].
             ++ split; [exact X1|]. right. split; [exact X2|exact X3].
  Qed.

  (** If no two items are stored under the same key, [s[i] = value] replaces the item at [i] and no other. *)
  Theorem setitem_exact load i value s : (1 <= load)%nat -> well_kept s -> NoDup (map fst (items s)) -> (i < length (items s))%nat ->
    exists s' k, setitem load i value s = Some s' /\ well_kept s' /\ option_map fst (nth_error (items s) i) = Some k /\
      nth_error (items s') i = Some (k, value) /\ length (items s') = length (items s) /\
      forall j, j <> i -> nth_error (items s') j = nth_error (items s) j.
  Proof.
    intros HL W N Hi. unfold setitem. destruct (nth_error (items s) i) as [[k v0]|] eqn:E; [|apply nth_error_None in E; lia].
    destruct (merge_outcome load k value (fun _ y => y) s HL W) as (W' & [(a & v & c & I1 & I2)|(K & _)]); [|exfalso; apply K; apply nth_error_In in E; apply (in_map fst) in E; exact E].
    exists (merge load k value (fun _ y => y) s), k. split; [reflexivity|]. split; [exact W'|]. split; [reflexivity|].
    assert (Ei : i = length a).
    { apply (proj1 (NoDup_nth_error _) N); [rewrite map_length; exact Hi|]. rewrite !nth_error_map, E, I1, nth_error_app2, Nat.sub_diag by lia. reflexivity. }
    rewrite I2, I1. split; [rewrite Ei, nth_error_app2, Nat.sub_diag by lia; reflexivity|]. split; [rewrite !app_length; reflexivity|].
    intros j Hj. destruct (Nat.lt_ge_cases j (length a)) as [Q|Q]; [rewrite !nth_error_app1 by exact Q; reflexivity|]. rewrite !nth_error_app2 by exact Q. destruct (j - length a)%nat eqn:Ej; [lia|reflexivity].
  Qed.
End Proofs.
Print Assumptions merge_outcome.
Print Assumptions setitem_exact.

(** Finding: with two items of the same key, setting the first one changes the second. *)
Theorem setitem_wrong_item (V : Type) load k (x y z : V) : let s := SL [[(k, x); (k, y)]] [k] 2 in
  well_kept s /\ option_map items (setitem load 0 z s) = Some [(k, x); (k, z)].
Proof.
  split; [constructor; cbn; [repeat constructor; discriminate|reflexivity|repeat constructor; lia|reflexivity]|].
  unfold setitem, merge. cbn. rewrite Z.ltb_irrefl. cbn. rewrite Z.leb_refl. cbn. rewrite Z.eqb_refl. reflexivity.
Qed.
Print Assumptions setitem_wrong_item.

(** Finding: with no item of the key of [old] the value is kept under that key, whatever its own
    key is: here the items are the keys themselves, and the list is not sorted any more. *)
Theorem merge_foreign_key : let s := merge 1000 1 5 (fun _ y => y) (SL [[(0, 0); (2, 2)]] [2] 2) in
  well_kept s /\ map snd (items s) = [0; 5; 2].
Proof. split; [constructor; cbn; [repeat constructor; discriminate|reflexivity|repeat constructor; lia|reflexivity]|reflexivity]. Qed.
Print Assumptions merge_foreign_key.

(** Two buckets; the load is 1, so that a bucket of three is split. *)
Example merge_example : let s := SL [[(1, 10); (3, 30)]; [(5, 50); (7, 70)]] [3; 7] 4 in
  well_kept s /\ NoDup (map fst (items s)) /\
  merge 1 5 4 Z.add s = SL [[(1, 10); (3, 30)]; [(5, 54); (7, 70)]] [3; 7] 4 /\
  merge 1 6 4 Z.add s = SL [[(1, 10); (3, 30)]; [(5, 50)]; [(6, 4); (7, 70)]] [3; 5; 7] 5 /\
  merge 1 9 4 Z.add s = SL [[(1, 10); (3, 30)]; [(5, 50)]; [(7, 70); (9, 4)]] [3; 5; 9] 5.
Proof.
  split; [constructor; cbn; [repeat constructor; discriminate|reflexivity|repeat constructor; lia|reflexivity]|]. split; [cbn; repeat constructor; cbn; intuition lia|]. repeat split.
Qed.
