(** Lemmas about spec-driven teams and the distribution of an assigned time. *)
From Coq Require Import ZArith List Bool Lia Arith.
From Coq Require Import ZifyBool ZifyNat.
From Verif Require Import TimeModel MomentumModel MomentumSpec GraphModel ScheduleModel ContractorProofs.
Import ListNotations.
Local Open Scope Z_scope.

(** What is asked of the answer of an optimizer, for borders with 0 <= min <= max: counts of the same length; positions it
    may not change keep their counts; the others are within the borders. *)
Fixpoint respects_borders (bs : list border) (flags : list bool) (counts res : list Z) : Prop :=
  match bs, flags, counts, res with
  | [], [], [], [] => True
  | b :: bs', f :: fs', c :: cs', r :: rs' =>
      (if f : bool then bd_min b <= r <= bd_max b else r = c) /\ respects_borders bs' fs' cs' rs'
  | _, _, _, _ => False
  end.
Definition optimizer_ok (optimize : list border -> option (list bool) -> list Z -> option (list Z)) : Prop :=
  forall bs flags counts res, Forall (fun b => 0 <= bd_min b <= bd_max b) bs -> length counts = length bs ->
    optimize bs flags counts = Some res ->
    match flags with
    | None => respects_borders bs (map (fun _ => true) bs) counts res
    | Some fs => length fs = length bs -> respects_borders bs fs counts res
    end.

(** Counts within the borders. *)
Definition within_borders (bs : list border) (counts : list Z) : Prop :=
  Forall2 (fun b n => bd_min b <= n <= bd_max b) bs counts.
(** What is asked of an optimizer for schedulers that do not fail: whenever the timeline
    finds times for all teams within the borders, the optimizer answers some counts. When
    the specification names all counts the optimizer is not called. *)
Definition optimizer_answers {S : Type} (find : sched -> S -> nat -> list worker -> bool -> Z -> option (Z * Z))
           (optimize : nat -> nat -> sched -> S -> list border -> option (list bool) -> list Z -> option (list Z))
           (reqs : nat -> list req) (cs : list contractor) (spec : nat -> work_spec) (apt : Z) : Prop :=
  forall n c sd s bs, get_worker_borders (pool_of cs) c (reqs n) = Some bs ->
    length (sp_workers (spec n)) <> length bs ->
    (forall counts, within_borders bs counts ->
       find sd s n (team_of_counts c bs counts) (sp_independent (spec n)) apt <> None) ->
    optimize_using_spec (sp_workers (spec n)) (map bd_kind bs) (map bd_count bs) (optimize n c sd s bs) <> None.

(** The counts chosen for the borders of a team. *)
Definition count_ok (spec : list (nat * Z)) (full : bool) (b : border) (n : Z) : Prop :=
  match assoc_get spec (bd_kind b) with
  | Some m => if full || (0 <? m) then n = m else bd_min b <= n <= bd_max b
  | None => bd_min b <= n <= bd_max b
  end.

Lemma all_spec_counts_spec spec : forall kinds l, all_spec_counts spec kinds = Some l ->
  Forall2 (fun k n => assoc_get spec k = Some n) kinds l.
Proof.
  induction kinds as [|k r IH]; simpl; intros l H; [injection H as <-; constructor|].
  destruct (assoc_get spec k) as [n|] eqn:E; [|discriminate].
  destruct (all_spec_counts spec r) as [l'|]; [|discriminate]. injection H as <-. constructor; auto.
Qed.
Lemma all_spec_counts_total spec : forall kinds, (forall k, In k kinds -> assoc_get spec k <> None) ->
  exists l, all_spec_counts spec kinds = Some l.
Proof.
  induction kinds as [|k r IH]; intros H; simpl; [eauto|].
  destruct (assoc_get spec k) as [n|] eqn:E; [|exfalso; apply (H k); simpl; auto].
  destruct IH as [l ->]; [intros k' Hk'; apply H; right; exact Hk'|]. eauto.
Qed.

Lemma respects_flags spec : forall bs counts res, length counts = length bs ->
  respects_borders bs (map (spec_flag spec) (map bd_kind bs))
    (map (spec_count spec) (combine (map bd_kind bs) counts)) res ->
  Forall2 (count_ok spec false) bs res.
Proof.
  induction bs as [|b bs IH]; intros [|c counts] [|r res] Hl H; simpl in *; try lia; try contradiction; [constructor|].
  destruct H as [H1 H2]. constructor; [|apply (IH counts); auto; lia].
  unfold count_ok, spec_flag, spec_count in *. simpl in *.
  destruct (assoc_get spec (bd_kind b)) as [m|]; [|exact H1]. simpl. destruct (0 <? m); simpl in *; exact H1.
Qed.
Lemma respects_all : forall bs counts res, length counts = length bs ->
  respects_borders bs (map (fun _ => true) bs) counts res ->
  Forall2 (count_ok [] false) bs res.
Proof.
  induction bs as [|b bs IH]; intros [|c counts] [|r res] Hl H; simpl in *; try lia; try contradiction; [constructor|].
  destruct H as [H1 H2]. constructor; [exact H1|apply (IH counts); auto; lia].
Qed.

Lemma team_counts_spec spec bs optimize counts : optimizer_ok optimize ->
  Forall (fun b => 0 <= bd_min b <= bd_max b) bs ->
  optimize_using_spec spec (map bd_kind bs) (map bd_count bs) (optimize bs) = Some counts ->
  Forall2 (count_ok spec (Nat.eqb (length spec) (length bs))) bs counts.
Proof.
  intros Hopt Hb. unfold optimize_using_spec. rewrite map_length.
  destruct (Nat.eqb (length spec) (length bs)) eqn:El.
  - intros H. apply all_spec_counts_spec in H. clear El Hb. revert counts H.
    induction bs as [|b bs IH]; simpl; intros counts H; inversion H; subst; constructor; auto.
    unfold count_ok. rewrite H2. reflexivity.
  - destruct spec as [|x spec'] eqn:Es.
    + intros H. apply (respects_all bs (map bd_count bs)); [apply map_length|].
      apply (Hopt bs None); [exact Hb|apply map_length|exact H].
    + intros H. rewrite <- Es in *. apply (respects_flags spec bs (map bd_count bs)); [apply map_length|].
      apply (Hopt bs (Some (map (spec_flag spec) (map bd_kind bs)))); [exact Hb| |exact H|].
      * rewrite map_length, combine_length, !map_length. lia.
      * rewrite !map_length. reflexivity.
Qed.

(** ** Distribution of an assigned time *)

Lemma set_time_id x : - TIME_INF <= x <= TIME_INF -> set_time x = x.
Proof. intros H. unfold set_time. destruct (Z.ltb_spec TIME_INF x); [lia|]. destruct (Z.ltb_spec x (- TIME_INF)); lia. Qed.

Definition zsum (l : list Z) : Z := fold_right Z.add 0 l.

Lemma proportional_spec : forall volumes total remaining,
  volumes <> [] -> Forall (fun v => 0 <= v) volumes -> total = zsum volumes ->
  0 <= remaining <= TIME_INF ->
  length (proportional_times total remaining volumes) = length volumes /\
  Forall (fun t => 0 <= t) (proportional_times total remaining volumes) /\
  zsum (proportional_times total remaining volumes) = remaining.
Proof.
  induction volumes as [|v r IH]; intros total remaining Hne Hpos Htot Hrem; [congruence|].
  inversion Hpos as [|? ? Hv Hpos']; subst.
  destruct r as [|v2 r'] eqn:Er.
  - simpl. repeat split; [constructor; [lia|constructor]|lia].
  - rewrite <- Er in *. assert (Hr0 : 0 <= zsum r).
    { clear -Hpos'. induction Hpos'; simpl; lia. }
    set (total := zsum (v :: r)) in *. assert (Htotal : total = v + zsum r) by reflexivity.
    set (t := if 0 <? total then set_time (Z.quot (remaining * v) total) else 0).
    assert (Ht : 0 <= t <= remaining).
    { unfold t. destruct (Z.ltb_spec 0 total); [|lia].
      rewrite Z.quot_div_nonneg by nia.
      assert (0 <= remaining * v / total) by (apply Z.div_pos; nia).
      assert (remaining * v / total <= remaining) by (apply Z.div_le_upper_bound; nia).
      rewrite set_time_id by lia. lia. }
    assert (Hs : tsub remaining t = remaining - t) by (unfold tsub; apply set_time_id; lia).
    destruct (IH (total - v) (remaining - t)) as (H1 & H2 & H3); auto; try lia; [rewrite Er; discriminate|].
    assert (Hstep : proportional_times total remaining (v :: r) = t :: proportional_times (total - v) (remaining - t) r).
    { destruct r as [|x r'']; [discriminate|]. cbn [proportional_times]. fold t. rewrite Hs. reflexivity. }
    rewrite Hstep. cbn [length zsum fold_right]. unfold zsum in H3. rewrite H1, H3.
    repeat split; [constructor; [lia|exact H2]|lia].
Qed.

Lemma zsum_app a b : zsum (a ++ b) = zsum a + zsum b.
Proof. induction a as [|x a IH]; simpl; [reflexivity|]. unfold zsum in *. lia. Qed.
Lemma zsum_repeat x n : zsum (repeat x n) = x * Z.of_nat n.
Proof.
  induction n as [|n IH]; [simpl; lia|]. cbn [repeat zsum fold_right]. unfold zsum in IH. rewrite IH. lia.
Qed.

Lemma assigned_times_spec volumes assigned : volumes <> [] -> Forall (fun v => 0 <= v) volumes ->
  0 <= assigned <= TIME_INF ->
  length (assigned_exec_times volumes assigned) = length volumes /\
  Forall (fun t => 0 <= t) (assigned_exec_times volumes assigned) /\
  zsum (assigned_exec_times volumes assigned) = assigned.
Proof.
  intros Hne Hpos Ha. unfold assigned_exec_times.
  destruct (Z.leb_spec (fold_right Z.add 0 volumes) 0) as [H0|H0].
  - assert (Hn : (0 < length volumes)%nat) by (destruct volumes; [congruence|simpl; lia]).
    set (n := length volumes) in *. unfold tfloordiv.
    destruct (Z.eqb_spec (Z.of_nat n) 0); [lia|].
    assert (Hq : 0 <= assigned / Z.of_nat n) by (apply Z.div_pos; lia).
    assert (Hq2 : assigned / Z.of_nat n * Z.of_nat n <= assigned) by (rewrite Z.mul_comm; apply Z.mul_div_le; lia).
    set (q := assigned / Z.of_nat n) in *.
    assert (Hqa : q <= assigned) by nia. rewrite set_time_id by lia.
    assert (Hq3 : 0 <= q * Z.of_nat (n - 1) <= assigned) by nia.
    assert (Em : tmul q (Z.of_nat (n - 1)) = q * Z.of_nat (n - 1)) by (unfold tmul; apply set_time_id; lia).
    rewrite Em. assert (Es : tsub assigned (q * Z.of_nat (n - 1)) = assigned - q * Z.of_nat (n - 1)) by (unfold tsub; apply set_time_id; lia).
    rewrite Es. rewrite app_length, repeat_length. split; [simpl; lia|]. split.
    + apply Forall_app. split; [|constructor; [lia|constructor]].
      apply Forall_forall. intros x Hx. apply repeat_spec in Hx. lia.
    + rewrite zsum_app, zsum_repeat. simpl. lia.
  - apply proportional_spec; auto.
Qed.
