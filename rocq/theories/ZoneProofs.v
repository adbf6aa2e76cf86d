(** One zone: the slots found and the moments accepted are free of conflicts. *)
From Coq Require Import ZArith List Bool Lia Permutation Sorted.
From Verif Require Import TimeModel ZoneModel.
Import ListNotations.
Local Open Scope Z_scope.

(** A work that occupies a zone: its number, the required status, its start and finish. *)
Record booking := Bk { bk_seq : Z; bk_status : nat; bk_start : Z; bk_finish : Z }.
Definition conflict (a b : nat) : Prop := a <> b /\ a <> 0%nat /\ b <> 0%nat.
Definition start_event (b : booking) : zevent := ZE (bk_seq b) ZStart (bk_start b) (bk_status b).
Definition end_event (b : booking) : zevent := ZE (bk_seq b) ZEnd (bk_finish b) (bk_status b).
Definition init_event (s : nat) : zevent := ZE (-1) ZInit 0 s.
Definition events (B : list booking) : list zevent := flat_map (fun b => [start_event b; end_event b]) B.

Definition klt (a b : Z * Z * Z) : Prop :=
  let '(a1, a2, a3) := a in let '(b1, b2, b3) := b in
  a1 < b1 \/ (a1 = b1 /\ (a2 < b2 \/ (a2 = b2 /\ a3 < b3))).
Definition elt (a b : zevent) : Prop := klt (zkey a) (zkey b).
Lemma klt_irrefl a : ~ klt a a.
Proof. destruct a as [[a1 a2] a3]. cbn. lia. Qed.
Lemma klt_trans a b c : klt a b -> klt b c -> klt a c.
Proof. destruct a as [[a1 a2] a3], b as [[b1 b2] b3], c as [[c1 c2] c3]. cbn. lia. Qed.
Lemma klt_time a b : elt a b -> ztime a <= ztime b.
Proof. unfold elt, ztime. destruct (zkey a) as [[a1 a2] a3], (zkey b) as [[b1 b2] b3]. cbn. lia. Qed.
Lemma time_klt a b : ztime a < ztime b -> elt a b.
Proof. unfold elt, ztime. destruct (zkey a) as [[a1 a2] a3], (zkey b) as [[b1 b2] b3]. cbn. lia. Qed.
Lemma leb_klt a b : zkey_leb a b = true -> a <> b -> klt a b.
Proof. destruct a as [[a1 a2] a3], b as [[b1 b2] b3]. unfold zkey_leb. rewrite !orb_true_iff, !andb_true_iff, !orb_true_iff, !andb_true_iff, !Z.ltb_lt, !Z.eqb_eq, Z.leb_le. cbn. intros H N. destruct (Z.eq_dec a3 b3); [|lia]. destruct (Z.eq_dec a2 b2); [|lia]. destruct (Z.eq_dec a1 b1); [|lia]. subst. congruence. Qed.
Lemma leb_false_klt a b : zkey_leb a b = false -> klt b a.
Proof. destruct a as [[a1 a2] a3], b as [[b1 b2] b3]. unfold zkey_leb. rewrite !orb_false_iff, !andb_false_iff, !orb_false_iff, !andb_false_iff, !Z.ltb_ge, !Z.eqb_neq, Z.leb_gt. cbn. lia. Qed.

Lemma zadd_perm e l : Permutation (zadd e l) (e :: l).
Proof.
  induction l as [|x l IH]; cbn; [constructor; constructor|]. destruct (zkey_leb (zkey x) (zkey e)); [|apply Permutation_refl].
  etransitivity; [apply perm_skip, IH|apply perm_swap].
Qed.
Lemma zadd_sorted e l : StronglySorted elt l -> (forall x, In x l -> zkey x <> zkey e) -> StronglySorted elt (zadd e l).
Proof.
  intros Hs Hd. induction Hs as [|x l Hs IH Hf]; cbn; [repeat constructor|].
  destruct (zkey_leb (zkey x) (zkey e)) eqn:C.
  - constructor; [apply IH; intros y Hy; apply Hd; right; exact Hy|]. apply Forall_forall. intros y Hy. apply (Permutation_in _ (zadd_perm e l)) in Hy as [<-|Hy].
    + apply leb_klt; [exact C|apply Hd; left; reflexivity].
    + rewrite Forall_forall in Hf. auto.
  - apply leb_false_klt in C. constructor; [constructor; assumption|]. constructor; [exact C|]. eapply Forall_impl; [|exact Hf]. intros y Hy. eapply klt_trans; eassumption.
Qed.
Lemma sorted_nth l : StronglySorted elt l -> forall i j, (i < j)%nat -> (j < length l)%nat -> elt (nth i l zdummy) (nth j l zdummy).
Proof.
  induction 1 as [|x l Hs IH Hf]; cbn; [lia|]. intros [|i] [|j] L1 L2; try lia.
  - rewrite Forall_forall in Hf. apply Hf, nth_In. lia.
  - apply IH; lia.
Qed.
Lemma zright_le l t : (zright l t <= length l)%nat.
Proof. unfold zright. induction l as [|x l IH]; cbn; [lia|]. destruct (ztime x <=? t); cbn; lia. Qed.
Lemma zright_spec l t : StronglySorted elt l -> forall i, (i < length l)%nat -> (i < zright l t)%nat <-> ztime (nth i l zdummy) <= t.
Proof.
  unfold zright. induction 1 as [|x l Hs IH Hf]; cbn [length nth filter]; [lia|]. intros i L.
  destruct (Z.leb_spec (ztime x) t) as [C|C]; cbn [length].
  - destruct i as [|i]; [split; [auto|lia]|]. rewrite <- (IH i) by lia. lia.
  - assert (E : filter (fun e => ztime e <=? t) l = []).
    { clear - Hf C. rewrite Forall_forall in Hf. induction l as [|y l IH]; cbn; [reflexivity|].
      assert (X := klt_time _ _ (Hf y (or_introl eq_refl))). destruct (Z.leb_spec (ztime y) t); [lia|]. apply IH. intros z Hz. apply Hf. right. exact Hz. }
    rewrite E. cbn. split; [lia|]. intros Ht. exfalso. destruct i as [|i]; [lia|].
    rewrite Forall_forall in Hf. assert (X := klt_time _ _ (Hf _ (nth_In l zdummy (n := i) ltac:(lia)))). lia.
Qed.
Lemma nth_skip {A} (d : A) : forall i (l : list A) k, nth k (skipn i l) d = nth (i + k) l d.
Proof. induction i as [|i IH]; intros [|x l] k; cbn; auto. destruct k; reflexivity. Qed.
Lemma nth_first {A} (d : A) : forall j (l : list A) k, (k < j)%nat -> nth k (firstn j l) d = nth k l d.
Proof. induction j as [|j IH]; intros [|x l] [|k] L; cbn; auto; try lia. apply IH. lia. Qed.
Lemma in_slice l i j e : In e (zslice l i j) -> exists k, (i <= k < j)%nat /\ (k < length l)%nat /\ nth k l zdummy = e.
Proof.
  unfold zslice. intros H. apply (In_nth _ _ zdummy) in H as (k & L & E). rewrite skipn_length, firstn_length in L.
  exists (i + k)%nat. split; [lia|]. split; [lia|]. rewrite nth_skip, nth_first in E by lia. exact E.
Qed.
Lemma slice_in l i j k : (i <= k < j)%nat -> (k < length l)%nat -> In (nth k l zdummy) (zslice l i j).
Proof.
  unfold zslice. intros H L. replace (nth k l zdummy) with (nth (k - i) (skipn i (firstn j l)) zdummy).
  - apply nth_In. rewrite skipn_length, firstn_length. lia.
  - rewrite nth_skip, nth_first by lia. f_equal. lia.
Qed.
Lemma last_mismatch_none l q i : forall j, last_mismatch l q i j = None -> forall k, (i <= k < j)%nat -> zmatch (ze_status (nth k l zdummy)) q = true.
Proof.
  induction j as [|j IH]; cbn; intros H k L; [lia|]. destruct (Nat.leb_spec i j); [|lia]. destruct (zmatch _ q) eqn:M; [|discriminate].
  destruct (Nat.eq_dec k j) as [->|]; [exact M|]. apply IH; [exact H|lia].
Qed.
Lemma last_mismatch_some l q i : forall j k, last_mismatch l q i j = Some k -> (i <= k < j)%nat.
Proof.
  induction j as [|j IH]; cbn; intros k H; [discriminate|]. destruct (Nat.leb_spec i j); [|discriminate]. destruct (zmatch _ q); [specialize (IH k H); lia|injection H as <-; lia].
Qed.

(** The state of a zone: the events are those of the bookings, which do not conflict. *)
Record zinv (s0 : nat) (l : list zevent) (B : list booking) (H : Z) : Prop := {
  zi_sorted : StronglySorted elt l;
  zi_perm : Permutation l (init_event s0 :: events B);
  zi_times : forall b, In b B -> 0 <= bk_seq b /\ 0 <= bk_start b <= bk_finish b /\ bk_finish b <= H;
  zi_free : forall b b', In b B -> In b' B -> conflict (bk_status b) (bk_status b') ->
     elt (end_event b) (start_event b') \/ elt (end_event b') (start_event b)
}.
Lemma in_events B e : In e (events B) <-> exists b, In b B /\ (e = start_event b \/ e = end_event b).
Proof.
  unfold events. rewrite in_flat_map. split.
  - intros (b & Hb & [<-|[<-|[]]]); eauto.
  - intros (b & Hb & [-> | ->]); exists b; cbn; auto.
Qed.
Lemma match_conflict s q : zmatch s q = true -> q <> 0%nat -> s = q.
Proof. unfold zmatch. rewrite orb_true_iff, !Nat.eqb_eq. tauto. Qed.
Lemma no_match s q : zmatch s q = false -> q <> 0%nat.
Proof. unfold zmatch. rewrite orb_false_iff, Nat.eqb_neq. tauto. Qed.

(** What makes [t] a right moment for a work of length [exec]. *)
Definition free_at (B : list booking) (t exec : Z) (q : nat) : Prop :=
  forall b, In b B -> conflict (bk_status b) q -> bk_finish b <= t \/ t + exec < bk_start b.
Section Slot.
  Variables (s0 : nat) (l : list zevent) (B : list booking) (H : Z).
  Hypothesis I : zinv s0 l B H.
  Variables (exec : Z) (q : nat).
  Hypothesis He : 0 <= exec.
  Lemma in_l e : In e l <-> e = init_event s0 \/ exists b, In b B /\ (e = start_event b \/ e = end_event b).
  Proof.
    rewrite <- in_events. split.
    - intros X. apply (Permutation_in _ (zi_perm _ _ _ _ I)) in X as [X|X]; auto.
    - intros X. apply (Permutation_in _ (Permutation_sym (zi_perm _ _ _ _ I))). destruct X as [-> |X]; [left; reflexivity|right; exact X].
  Qed.
  Lemma l_pos : (0 < length l)%nat.
  Proof. rewrite (Permutation_length (zi_perm _ _ _ _ I)). cbn. lia. Qed.
  Lemma before_end b : In b B -> elt (start_event b) (end_event b).
  Proof. intros Hb. destruct (zi_times _ _ _ _ I b Hb) as (_ & [_ X] & _). unfold elt, zkey; cbn. lia. Qed.
  Lemma l_time e : In e l -> -1 <= ztime e.
  Proof. intros X. apply in_l in X as [-> |(b & Hb & [-> | ->])]; cbn; [lia| |]; destruct (zi_times _ _ _ _ I b Hb); lia. Qed.
  Lemma l_not_init i : (0 < i)%nat -> (i < length l)%nat -> exists b, In b B /\ (nth i l zdummy = start_event b \/ nth i l zdummy = end_event b).
  Proof.
    intros L1 L2. destruct (proj1 (in_l _) (nth_In l zdummy L2)) as [E|X]; [|exact X]. exfalso.
    assert (X := sorted_nth l (zi_sorted _ _ _ _ I) 0 i L1 L2). unfold elt in X. rewrite E in X. cbn in X.
    assert (Y := l_time _ (nth_In l zdummy l_pos)). destruct (proj1 (in_l _) (nth_In l zdummy l_pos)) as [Z0|(b & Hb & Z0)].
    - rewrite Z0 in X. cbn in X. lia.
    - destruct (zi_times _ _ _ _ I b Hb) as (T1 & T2 & T3). destruct Z0 as [Z0|Z0]; rewrite Z0 in X; cbn in X; lia.
  Qed.
  Lemma l_real_time i : (0 < i)%nat -> (i < length l)%nat -> ztime (nth i l zdummy) = ze_time (nth i l zdummy) /\ 0 <= ze_time (nth i l zdummy) <= H.
  Proof.
    intros L1 L2. destruct (l_not_init i L1 L2) as (b & Hb & [E|E]); rewrite E; destruct (zi_times _ _ _ _ I b Hb) as (T1 & T2 & T3); cbn; lia.
  Qed.
  Lemma zright_pos t : 0 <= t -> (0 < zright l t)%nat.
  Proof.
    intros Ht. apply (zright_spec l t (zi_sorted _ _ _ _ I) 0 l_pos).
    destruct (In_nth l (init_event s0) zdummy (proj2 (in_l _) (or_introl eq_refl))) as (i & L & E).
    destruct i as [|i]; [rewrite E; cbn; lia|]. exfalso. destruct (l_not_init (S i) ltac:(lia) L) as (b & _ & [X|X]); rewrite X in E; discriminate.
  Qed.
  Lemma pos_of e : In e l -> exists i, (i < length l)%nat /\ nth i l zdummy = e.
  Proof. intros X. apply In_nth, X. Qed.

  (** All events from [idx] to the end of the work match. *)
  Lemma good_matching t idx : 0 <= t -> (idx < length l)%nat -> ztime (nth idx l zdummy) <= t ->
    (forall k, (idx <= k < zright l (t + exec))%nat -> zmatch (ze_status (nth k l zdummy)) q = true) -> free_at B t exec q.
  Proof.
    intros Ht Li Ti Hm b Hb [C1 [C2 C3]]. assert (S := zi_sorted _ _ _ _ I).
    destruct (Z_le_gt_dec (bk_finish b) t) as [|G]; [left; assumption|]. destruct (Z_lt_le_dec (t + exec) (bk_start b)) as [|G2]; [right; assumption|]. exfalso.
    destruct (pos_of (start_event b)) as (p & Lp & Ep); [apply in_l; eauto|]. destruct (pos_of (end_event b)) as (p' & Lp' & Ep'); [apply in_l; eauto|].
    assert (P1 : (p < zright l (t + exec))%nat) by (apply (zright_spec l _ S p Lp); rewrite Ep; cbn; lia).
    assert (P2 : (p < idx)%nat).
    { destruct (Nat.lt_ge_cases p idx) as [|G3]; [assumption|exfalso]. assert (X := Hm p ltac:(lia)). rewrite Ep in X. cbn in X. apply match_conflict in X; [congruence|assumption]. }
    assert (P3 : (idx < p')%nat).
    { destruct (Nat.lt_ge_cases idx p') as [|G3]; [assumption|exfalso]. assert (ztime (nth p' l zdummy) <= t).
      { destruct (Nat.eq_dec p' idx) as [->|]; [exact Ti|]. etransitivity; [|exact Ti]. apply klt_time, sorted_nth; [exact S|lia|exact Li]. }
      rewrite Ep' in H0. cbn in H0. lia. }
    assert (Mi : ze_status (nth idx l zdummy) = q) by (apply match_conflict; [apply Hm|assumption]; split; [lia|]; apply (zright_spec l _ S idx Li); lia).
    destruct (l_not_init idx ltac:(lia) Li) as (c & Hc & Ec).
    assert (Sc : bk_status c = q) by (destruct Ec as [Ec|Ec]; rewrite Ec in Mi; exact Mi).
    assert (O1 := sorted_nth l S p idx P2 Li). assert (O2 := sorted_nth l S idx p' P3 Lp'). rewrite Ep in O1. rewrite Ep' in O2.
    assert (Bc := before_end c Hc).
    destruct (zi_free _ _ _ _ I b c Hb Hc) as [F|F]; [unfold conflict; rewrite Sc; auto| |]; unfold elt in *.
    - (* b before c *) destruct Ec as [Ec|Ec]; rewrite Ec in O2.
      + apply (klt_irrefl _ (klt_trans _ _ _ O2 F)).
      + apply (klt_irrefl _ (klt_trans _ _ _ (klt_trans _ _ _ O2 F) Bc)).
    - destruct Ec as [Ec|Ec]; rewrite Ec in O1.
      + apply (klt_irrefl _ (klt_trans _ _ _ (klt_trans _ _ _ O1 Bc) F)).
      + apply (klt_irrefl _ (klt_trans _ _ _ O1 F)).
  Qed.
  Lemma valid_matching t idx : 0 <= t -> - TIME_INF <= t + exec <= TIME_INF -> (idx < length l)%nat -> ztime (nth idx l zdummy) <= t ->
    (forall k, (idx <= k < zright l (t + exec))%nat -> zmatch (ze_status (nth k l zdummy)) q = true) -> zvalid l t exec q = true.
  Proof.
    intros Ht Hb Li Ti Hm. assert (S := zi_sorted _ _ _ _ I). unfold zvalid.
    replace (tadd t exec) with (t + exec) by (unfold tadd, set_time; destruct (Z.ltb_spec TIME_INF (t + exec)); [lia|]; destruct (Z.ltb_spec (t + exec) (- TIME_INF)); [lia|reflexivity]).
    assert (P1 : (idx < zright l t)%nat) by (apply (zright_spec l t S idx Li); exact Ti).
    assert (L := zright_le l t). apply andb_true_iff. split.
    - apply forallb_forall. intros e X. apply in_slice in X as (k & K1 & K2 & <-). apply Hm. lia.
    - assert (M : zmatch (ze_status (nth (zright l t - 1) l zdummy)) q = true).
      { apply Hm. split; [lia|]. apply (zright_spec l _ S); [lia|].
        assert (X : (zright l t - 1 < zright l t)%nat) by lia. apply (zright_spec l t S) in X; lia. }
      rewrite M. destruct (ze_kind _); reflexivity.
  Qed.
  (** All events are over. *)
  Lemma good_end t : (forall e, In e l -> ztime e <= t) -> free_at B t exec q.
  Proof. intros Hl b Hb _. left. apply (Hl (end_event b)). apply in_l. eauto. Qed.
  Lemma valid_quiet t : 0 <= t -> - TIME_INF <= t + exec <= TIME_INF -> (forall b, In b B -> bk_start b <= t -> bk_finish b <= t) ->
    (forall k, (zright l t <= k < zright l (t + exec))%nat -> zmatch (ze_status (nth k l zdummy)) q = true) -> zvalid l t exec q = true.
  Proof.
    intros Ht Hb Hq Hm. assert (S := zi_sorted _ _ _ _ I). unfold zvalid.
    replace (tadd t exec) with (t + exec) by (unfold tadd, set_time; destruct (Z.ltb_spec TIME_INF (t + exec)); [lia|]; destruct (Z.ltb_spec (t + exec) (- TIME_INF)); [lia|reflexivity]).
    apply andb_true_iff. split.
    - apply forallb_forall. intros e X. apply in_slice in X as (k & K1 & K2 & <-). apply Hm. lia.
    - assert (P := zright_pos t Ht). assert (L := zright_le l t).
      assert (X : (zright l t - 1 < zright l t)%nat) by lia. apply (zright_spec l t S) in X; [|lia].
      destruct (ze_kind (nth (zright l t - 1) l zdummy)) eqn:K; [reflexivity| |reflexivity]. exfalso.
      destruct (proj1 (in_l _) (nth_In l zdummy (n := zright l t - 1) ltac:(lia))) as [E|(b & Hb' & [E|E])]; rewrite E in K; try discriminate K.
      rewrite E in X. cbn in X. specialize (Hq b Hb' X). destruct (pos_of (end_event b)) as (p & Lp & Ep); [apply in_l; eauto|].
      assert (P1 : (p < zright l t)%nat) by (apply (zright_spec l t S p Lp); rewrite Ep; exact Hq).
      assert (Bc := before_end b Hb').
      destruct (Nat.eq_dec p (zright l t - 1)) as [->|N]; [rewrite Ep in E; discriminate|].
      assert (O := sorted_nth l S p (zright l t - 1) ltac:(lia) ltac:(lia)). rewrite Ep, E in O. apply (klt_irrefl _ (klt_trans _ _ _ O Bc)).
  Qed.
  Lemma last_time : 0 <= ze_time (zlast l) <= Z.max 0 H /\ (forall e, In e l -> ztime e <= ze_time (zlast l)) /\ zlast l = nth (length l - 1) l zdummy.
  Proof.
    assert (P := l_pos). assert (E : zlast l = nth (length l - 1) l zdummy).
    { unfold zlast. clear. induction l as [|x r IH]; [reflexivity|]. destruct r as [|y r]; [reflexivity|]. cbn [last length]. cbn [last length] in IH. rewrite IH.
      replace (S (S (length r)) - 1)%nat with (S (S (length r) - 1)) by lia. reflexivity. }
    rewrite E. split; [|split; [|reflexivity]].
    - destruct (Nat.eq_dec (length l) 1) as [E1|N].
      + rewrite E1. cbn [Nat.sub]. destruct (proj1 (in_l _) (nth_In l zdummy P)) as [X|(b & Hb & X)]; [rewrite X; cbn; lia|].
        destruct (zi_times _ _ _ _ I b Hb). destruct X as [X|X]; rewrite X; cbn; lia.
      + destruct (l_real_time (length l - 1)); lia.
    - intros e X. destruct (pos_of e X) as (i & L & <-).
      assert (Y : ztime (nth i l zdummy) <= ztime (nth (length l - 1) l zdummy)).
      { destruct (Nat.eq_dec i (length l - 1)) as [->|]; [lia|]. apply klt_time, sorted_nth; [apply (zi_sorted _ _ _ _ I)|lia|lia]. }
      destruct (Nat.eq_dec (length l) 1) as [E1|N].
      + etransitivity; [exact Y|]. rewrite E1. cbn [Nat.sub]. unfold ztime, zkey. destruct (proj1 (in_l _) (nth_In l zdummy P)) as [X'|(b & Hb & [X'|X'])]; rewrite X'; cbn; lia.
      + destruct (l_real_time (length l - 1)); lia.
  Qed.

  Section Find.
    Variable cost : nat -> nat -> Z.
    Hypothesis cost0 : forall s, zmatch s q = false -> cost s q = 0.
    Variable parent : Z.
    Hypothesis Hp : 0 <= parent.
    Hypothesis Hb : Z.max parent (Z.max 0 H + 1) + exec <= TIME_INF.
    Definition slot_ok (t : Z) : Prop :=
      parent <= t <= Z.max parent (Z.max 0 H + 1) /\ free_at B t exec q /\ zvalid l t exec q = true /\
      (t = parent \/ In t (map ze_time l) \/ t = ze_time (zlast l) + 1).
    Lemma inf_pos : 0 < TIME_INF. Proof. reflexivity. Qed.
    Lemma slot_loop_ok : forall fuel idx t, (length l - idx < fuel)%nat -> (idx < length l)%nat -> (zright l parent - 1 <= idx)%nat ->
      ztime (nth idx l zdummy) <= t -> parent <= t <= Z.max parent (Z.max 0 H) -> (t = parent \/ In t (map ze_time l)) ->
      exists t', slot_loop cost fuel l parent exec q idx t = Some t' /\ slot_ok t'.
    Proof.
      assert (S := zi_sorted _ _ _ _ I). assert (LT := last_time). destruct LT as (LT1 & LT2 & LT3). assert (PI := inf_pos).
      assert (PR := zright_pos parent Hp).
      induction fuel as [|fuel IH]; intros idx t F Li Lp Ti Tp Tc; [lia|]. cbn [slot_loop].
      destruct (Nat.leb_spec (length l) idx); [lia|].
      set (next := fun i => slot_loop cost fuel l parent exec q i (ze_time (nth i l zdummy))).
      assert (Next : forall i, (idx < i < length l)%nat -> exists t', next i = Some t' /\ slot_ok t').
      { intros i Hi. unfold next. destruct (l_real_time i) as [E1 E2]; [lia|lia|].
        assert (parent < ztime (nth i l zdummy)).
        { destruct (Z_le_gt_dec (ztime (nth i l zdummy)) parent) as [G|]; [|lia]. apply (zright_spec l parent S i) in G; lia. }
        apply IH; [lia|lia|lia|lia|lia|]. right. apply in_map, nth_In. lia. }
      assert (Scan : exists t', match last_mismatch l q idx (zright l (tadd t exec)) with
            | None => Some t
            | Some j => let idx' := Datatypes.S (Nat.max j idx) in
                        if Nat.leb (length l) idx' then Some (tmax parent (tadd (ze_time (zlast l)) 1)) else next idx'
            end = Some t' /\ slot_ok t').
      { replace (tadd t exec) with (t + exec) by (unfold tadd, set_time; destruct (Z.ltb_spec TIME_INF (t + exec)); [lia|]; destruct (Z.ltb_spec (t + exec) (- TIME_INF)); [lia|reflexivity]).
        destruct (last_mismatch l q idx (zright l (t + exec))) as [j|] eqn:M.
        - apply last_mismatch_some in M. assert (L := zright_le l (t + exec)). cbv zeta. destruct (Nat.leb_spec (length l) (Datatypes.S (Nat.max j idx))) as [G|G]; [|apply Next; lia].
          eexists. split; [reflexivity|].
          replace (tadd (ze_time (zlast l)) 1) with (ze_time (zlast l) + 1) by (unfold tadd, set_time; destruct (Z.ltb_spec TIME_INF (ze_time (zlast l) + 1)); [lia|]; destruct (Z.ltb_spec (ze_time (zlast l) + 1) (- TIME_INF)); [lia|reflexivity]).
          assert (TM : tmax parent (ze_time (zlast l) + 1) = Z.max parent (ze_time (zlast l) + 1)) by (unfold tmax; destruct (Z.ltb_spec parent (ze_time (zlast l) + 1)); lia).
          rewrite TM. assert (A : forall e, In e l -> ztime e <= Z.max parent (ze_time (zlast l) + 1)) by (intros e X; specialize (LT2 e X); lia).
          split; [lia|]. split; [apply good_end, A|]. split; [|lia].
          apply valid_quiet; [lia|lia| |].
          + intros b Hb' _. apply (A (end_event b)). apply in_l. eauto.
          + intros k K. exfalso. assert (L2 := zright_le l (Z.max parent (ze_time (zlast l) + 1) + exec)).
            assert (k < length l)%nat by lia. assert (X : ~ (k < zright l (Z.max parent (ze_time (zlast l) + 1)))%nat) by lia. apply X, (zright_spec l _ S k); [lia|]. apply A, nth_In. lia.
        - assert (M' := last_mismatch_none _ _ _ _ M). exists t. split; [reflexivity|]. split; [lia|]. split; [|split].
          + apply (good_matching t idx); auto; lia.
          + apply (valid_matching t idx); auto; lia.
          + tauto. }
      destruct (zmatch (ze_status (nth idx l zdummy)) q) eqn:M; cbn [negb]; [exact Scan|].
      rewrite (cost0 _ M). destruct (Nat.eqb_spec idx (length l - 1)) as [E|N].
      - assert (Tl : ze_time (zlast l) <= t).
        { rewrite LT3, <- E. destruct (Nat.eq_dec idx 0) as [E0|N0]; [|destruct (l_real_time idx); lia].
          rewrite E0 in *. destruct (proj1 (in_l _) (nth_In l zdummy Li)) as [X|(b & Hb' & X)]; [rewrite X; cbn; lia|].
          destruct X as [X|X]; rewrite X in *; cbn in *; lia. }
        assert (Tz : tmax 0 (tsub 0 (tsub t (ze_time (zlast l)))) = 0).
        { unfold tmax, tsub, set_time. destruct (Z.ltb_spec TIME_INF (t - ze_time (zlast l))); [lia|]. destruct (Z.ltb_spec (t - ze_time (zlast l)) (- TIME_INF)); [lia|].
          destruct (Z.ltb_spec TIME_INF (0 - (t - ze_time (zlast l)))); [lia|]. destruct (Z.ltb_spec (0 - (t - ze_time (zlast l))) (- TIME_INF)); [lia|]. destruct (Z.ltb_spec 0 (0 - (t - ze_time (zlast l)))); lia. }
        rewrite Tz. exists t. split.
        { unfold tadd, set_time. rewrite Z.add_0_r. destruct (Z.ltb_spec TIME_INF t); [lia|]. destruct (Z.ltb_spec t (- TIME_INF)); [lia|reflexivity]. }
        assert (A : forall e, In e l -> ztime e <= t) by (intros e X; specialize (LT2 e X); lia).
        split; [lia|]. split; [apply good_end, A|]. split; [|tauto].
        apply valid_quiet; [lia|lia| |].
        + intros b Hb' _. apply (A (end_event b)). apply in_l. eauto.
        + intros k K. exfalso. assert (L2 := zright_le l (t + exec)). assert (X : ~ (k < zright l t)%nat) by lia. apply X, (zright_spec l _ S k); [lia|]. apply A, nth_In. lia.
      - replace (tadd t 0) with t by (unfold tadd, set_time; rewrite Z.add_0_r; destruct (Z.ltb_spec TIME_INF t); [lia|]; destruct (Z.ltb_spec t (- TIME_INF)); [lia|reflexivity]).
        assert (Nx := Next (Datatypes.S idx) ltac:(lia)). destruct (ze_kind (nth idx l zdummy)); try exact Nx; destruct (zinside l idx); try exact Nx; exact Scan.
    Qed.
    Lemma find_slot_ok : exists t, find_slot cost l parent exec q = Some t /\ slot_ok t.
    Proof.
      assert (P := zright_pos parent Hp). assert (L := zright_le l parent).
      destruct (slot_loop_ok (S (length l)) (zright l parent - 1) parent) as (t & E & G); [lia|lia|lia| |lia|left; reflexivity|].
      - apply (zright_spec l parent (zi_sorted _ _ _ _ I)); lia.
      - exists t. unfold find_slot. rewrite E. destruct G as (G1 & G2 & G3 & G4). rewrite G3. split; [reflexivity|]. split; [exact G1|auto].
    Qed.
  End Find.
End Slot.
