(** C116: materials for a work graph. *)
From Coq Require Import ZArith List Bool Permutation Arith Lia.
From Verif Require Import TimeModel MomentumModel GraphModel TopoModel HeadModel HeadProofs LandscapeModel LandscapeProofs LandGenModel LandGenSpec LandGenTheorems MatGenModel MatGenSpec.
Import ListNotations.
Local Open Scope Z_scope.

Lemma asked_resolve names bottom top l b t : asked names bottom top l b t -> resolve names bottom top = (l, b, t).
Proof. unfold asked, resolve. destruct names as [l'|]; [intros (-> & [->|[-> ->]] & [->|[-> ->]])|intros (-> & -> & ->)]; reflexivity. Qed.
Lemma nodup_length l : (length (nodup Nat.eq_dec l) <= length l)%nat.
Proof. apply NoDup_incl_length; [apply NoDup_nodup|]. intros x K. apply nodup_In in K. exact K. Qed.
Lemma map_nth_seq {A} (f : nat -> A) l : map (fun i => (nth i l 0%nat, f i)) (seq 0 (length l)) = combine l (map f (seq 0 (length l))).
Proof.
  assert (G : forall l0, map (fun i => (nth i (l0 ++ l) 0%nat, f i)) (seq (length l0) (length l)) = combine l (map f (seq (length l0) (length l)))).
  { induction l as [|x l IH]; intros l0; [reflexivity|]. cbn [length seq map combine]. rewrite app_nth2, Nat.sub_diag by lia. cbn [nth]. f_equal. specialize (IH (l0 ++ [x])). rewrite app_length, <- app_assoc in IH. cbn [length app] in IH. rewrite Nat.add_1_r in IH. exact IH. }
  apply (G []).
Qed.
Lemma combine_fst {A B} (l : list A) (l' : list B) : length l = length l' -> map fst (combine l l') = l.
Proof. revert l'. induction l as [|x l IH]; intros [|y l'] E; cbn in E; try discriminate; [reflexivity|]. cbn. rewrite IH by lia. reflexivity. Qed.

Section Set_materials.
  Variables (service : nat -> bool) (nodes : list nat) (count : nat -> nat -> nat -> nat) (pick : nat -> nat -> nat -> nat) (order : nat -> list nat -> list nat) (amount : nat -> nat -> Z).
  Hypothesis Hf : fair count pick order amount.
  Lemma draw_fst l b t n : map fst (draw count pick order amount l b t n) = order n (nodup Nat.eq_dec (map (fun j => nth (pick n j (length l)) l 0%nat) (seq 0 (count n b t)))).
  Proof. unfold draw. rewrite map_nth_seq. apply combine_fst. rewrite map_length, seq_length. reflexivity. Qed.
  Lemma draw_proper l b t n : (b <= t)%nat -> (t <= length l)%nat -> proper l t (draw count pick order amount l b t n) /\ ((1 <= b)%nat -> draw count pick order amount l b t n <> []).
  Proof.
    intros Hb Ht. assert (Ef := draw_fst l b t n). set (c := map (fun j => nth (pick n j (length l)) l 0%nat) (seq 0 (count n b t))) in *. assert (Hc := fr_count _ _ _ _ Hf n b t Hb).
    assert (Lc : length c = count n b t) by (unfold c; rewrite map_length, seq_length; reflexivity). assert (P := fr_order _ _ _ _ Hf n (nodup Nat.eq_dec c)).
    assert (Ld : length (draw count pick order amount l b t n) = length (nodup Nat.eq_dec c)) by (rewrite <- (map_length fst), Ef; apply Permutation_length, P). split; [constructor|].
    - rewrite Ef. apply (Permutation_NoDup (Permutation_sym P)), NoDup_nodup.
    - intros m x K. split.
      + apply (in_map fst) in K. rewrite Ef in K. cbn in K. apply (Permutation_in _ P), nodup_In in K. unfold c in K. apply in_map_iff in K as (j & <- & K). apply in_seq in K. apply nth_In, (fr_pick _ _ _ _ Hf). lia.
      + unfold draw in K. apply in_map_iff in K as (i & E & _). injection E as _ <-. apply (fr_amount _ _ _ _ Hf).
    - rewrite Ld. assert (Q := nodup_length c). lia.
    - intros H1 E. rewrite E in Ld. destruct c as [|x c0] eqn:Ec; [cbn in Lc; lia|]. assert (K : In x (nodup Nat.eq_dec (x :: c0))) by (apply nodup_In; left; reflexivity). destruct (nodup Nat.eq_dec (x :: c0)); [destruct K|discriminate].
  Qed.
  Lemma set_all_made l b t : (b <= t)%nat -> forall ns reqs, exists reqs', set_all service count pick order amount l b t ns reqs = MaterialsSet reqs' /\
    forall n, reqs' n = if existsb (Nat.eqb n) ns && negb (service n) then draw count pick order amount l b t n else reqs n.
  Proof.
    intros Hb. induction ns as [|n ns IH]; intros reqs; cbn [set_all]; [exists reqs; auto|]. destruct (service n) eqn:Es.
    - destruct (IH reqs) as (r & E & K). exists r. split; [exact E|]. intros m. rewrite K. cbn [existsb]. destruct (Nat.eqb_spec m n) as [->|]; [|reflexivity]. rewrite Es. cbn. rewrite andb_false_r. reflexivity.
    - destruct (Nat.ltb_spec t b); [lia|]. destruct (IH (fun m => if Nat.eqb m n then draw count pick order amount l b t n else reqs m)) as (r & E & K). exists r. split; [exact E|]. intros m. rewrite K. cbn [existsb].
      destruct (Nat.eqb_spec m n) as [->|]; [|reflexivity]. rewrite Es. cbn. rewrite andb_true_r. destruct (existsb _ ns); reflexivity.
  Qed.

  (** If the borders are in order, service works keep their requirements and every other work
      gets new ones: distinct materials among the names, no more than the top border, and at
      least one if the bottom border is positive, with amounts from 52 to 345. *)
  Theorem materials_set names bottom top l b t reqs : asked names bottom top l b t -> (b <= t)%nat -> (t <= length l)%nat ->
    exists reqs', set_materials service nodes count pick order amount names bottom top reqs = MaterialsSet reqs' /\
      (forall n, service n = true \/ ~ In n nodes -> reqs' n = reqs n) /\
      forall n, In n nodes -> service n = false -> proper l t (reqs' n) /\ ((1 <= b)%nat -> reqs' n <> []).
  Proof.
    intros A Hb Ht. unfold set_materials. rewrite (asked_resolve _ _ _ _ _ _ A). destruct (Nat.ltb_spec (length l) b) as [Q1|Q1]; [lia|]. destruct (Nat.ltb_spec (length l) t) as [Q2|Q2]; [lia|]. cbn [orb].
    destruct (set_all_made l b t Hb nodes reqs) as (r & E & K). exists r. split; [exact E|]. split.
    - intros n [H|H]; rewrite K; [rewrite H, andb_false_r; reflexivity|]. destruct (existsb (Nat.eqb n) nodes) eqn:Ex; [|reflexivity]. exfalso. apply existsb_exists in Ex as (x & Hx & Ex). apply Nat.eqb_eq in Ex. subst. contradiction.
    - intros n Hn Hs. rewrite K, Hs. assert (Ex : existsb (Nat.eqb n) nodes = true) by (apply existsb_exists; exists n; rewrite Nat.eqb_refl; auto). rewrite Ex. cbn. apply draw_proper; assumption.
  Qed.

  (** Borders beyond the number of names are refused; so is a bottom border above the top one,
      unless there are only service works. *)
  Theorem borders_refused names bottom top l b t reqs : asked names bottom top l b t ->
    ((length l < b)%nat \/ (length l < t)%nat -> set_materials service nodes count pick order amount names bottom top reqs = BordersError) /\
    ((t < b <= length l)%nat -> (exists n, In n nodes /\ service n = false) -> set_materials service nodes count pick order amount names bottom top reqs = EmptyRange).
  Proof.
    intros A. unfold set_materials. rewrite (asked_resolve _ _ _ _ _ _ A). split.
    - intros H. destruct (Nat.ltb_spec (length l) b), (Nat.ltb_spec (length l) t); cbn; try reflexivity. lia.
    - intros H (n & Hn & Hs). destruct (Nat.ltb_spec (length l) b) as [Q1|Q1]; [lia|]. destruct (Nat.ltb_spec (length l) t) as [Q2|Q2]; [lia|]. cbn [orb]. clear A. induction nodes as [|x ns IH]; [destruct Hn|]. cbn [set_all].
      destruct (service x) eqn:Es; [destruct Hn as [->|Hn]; [congruence|auto]|]. destruct (Nat.ltb_spec t b); [reflexivity|lia].
  Qed.

  (** After it the generated landscape serves every work: what a work needs of a material fits
      into each platform, each holder has enough of it for all works, and its vehicles carry some
      of it and together what the work needs. *)
  Theorem landscape_after_materials g names bottom top l b t reqs reqs' P H count2 pick2 shuffle : asked names bottom top l b t -> (b <= t)%nat -> (t <= length l)%nat ->
    (forall n, In n nodes -> service n = true -> reqs n = []) ->
    set_materials service nodes count pick order amount names bottom top reqs = MaterialsSet reqs' ->
    NoDup nodes -> (forall e, In e (g_edges g) -> In (e_from e) nodes /\ In (e_to e) nodes) -> chains_wf g -> (1 <= P)%nat -> (1 <= H)%nat ->
    fair_count count2 -> fair_choice pick2 -> fair_shuffle shuffle ->
    exists s, get_landscape_by_wg g nodes reqs' P H count2 pick2 shuffle = Built s /\
      forall n m c, In n nodes -> In (m, c) (reqs' n) ->
        (forall st, In st (st_storage s) -> exists cap, In (m, cap) st /\ c <= cap) /\
        forall w, In w (st_holders s) -> (exists stock, In (m, stock) (wh_stock w) /\ total_need reqs' nodes m <= stock) /\
          exists load, (forall v, In v (wh_vehicles w) -> In (m, load) v) /\ 0 < load /\ c <= load * Z.of_nat (length (wh_vehicles w)).
  Proof.
    intros A Hb Ht Hs E Nn Hcl Hwf HP HH Hc Hp Hsh. destruct (materials_set names bottom top l b t reqs A Hb Ht) as (r & E' & K1 & K2). rewrite E in E'. injection E' as <-.
    destruct (landscape_generated g nodes reqs' P H count2 pick2 shuffle Nn Hcl Hwf HP HH Hc Hp Hsh) as (s & Es & _). exists s. split; [exact Es|]. intros n m c Hn Hm.
    assert (Q : forall n0, In n0 nodes -> NoDup (map fst (reqs' n0))).
    { intros n0 H0. destruct (service n0) eqn:S0; [rewrite K1 by auto; rewrite Hs by auto; constructor|apply (K2 n0 H0 S0)]. }
    assert (C52 : 2 <= c). { destruct (service n) eqn:S0; [rewrite K1, Hs in Hm by auto; destruct Hm|]. destruct (K2 n Hn S0) as [X _]. apply (pr_names _ _ _ X) in Hm. lia. }
    destruct (supplies_suffice g nodes reqs' P H count2 pick2 shuffle Nn Hcl Hwf HP HH Hc Hp Hsh s n m c Es Q Hn Hm) as (R1 & R2 & R3). split; [exact R1|]. intros w Hw. split; [apply R2, Hw|]. apply R3; [exists n, c; auto|exact Hw].
  Qed.
End Set_materials.
Print Assumptions materials_set.
Print Assumptions borders_refused.
Print Assumptions landscape_after_materials.

(** Finding: materials are drawn with replacement and equal ones fall together, so the bottom
    border is not kept: whatever it is, some draws give every work one material. *)
Theorem bottom_not_kept service nodes l b t reqs : (1 <= b)%nat -> (b <= t)%nat -> (t <= length l)%nat ->
  exists count pick order amount reqs', fair count pick order amount /\
    set_materials service nodes count pick order amount (Some l) (Some b) (Some t) reqs = MaterialsSet reqs' /\
    forall n, In n nodes -> service n = false -> length (reqs' n) = 1%nat.
Proof.
  intros H1 Hb Ht. assert (F : fair (fun _ lo _ => lo) (fun _ _ _ => 0%nat) (fun _ l => l) (fun _ _ => 52)) by (constructor; intros; try lia; reflexivity).
  assert (A : asked (Some l) (Some b) (Some t) l b t) by (cbn; auto).
  exists (fun _ lo _ => lo), (fun _ _ _ => 0%nat), (fun _ l => l), (fun _ _ => 52). destruct (set_all_made service (fun _ lo _ => lo) (fun _ _ _ => 0%nat) (fun _ l => l) (fun _ _ => 52) l b t Hb nodes reqs) as (r & E & K). exists r. split; [exact F|]. split.
  - unfold set_materials. rewrite (asked_resolve _ _ _ _ _ _ A). destruct (Nat.ltb_spec (length l) b) as [Q1|Q1]; [lia|]. destruct (Nat.ltb_spec (length l) t) as [Q2|Q2]; [lia|]. exact E.
  - intros n Hn Hs. rewrite K, Hs. assert (Ex : existsb (Nat.eqb n) nodes = true) by (apply existsb_exists; exists n; rewrite Nat.eqb_refl; auto). rewrite Ex. cbn [andb negb].
    rewrite <- (map_length fst), draw_fst. assert (G : forall k x, (1 <= k)%nat -> nodup Nat.eq_dec (map (fun _ : nat => x) (seq 0 k)) = [x]).
    { clear. intros k x Hk. generalize 0%nat as s. induction k as [|k IH]; [lia|]. intros s. cbn [seq map nodup]. destruct k as [|k]; [reflexivity|]. rewrite IH by lia. destruct (in_dec Nat.eq_dec x _) as [_|C]; [reflexivity|]. exfalso. apply C. left. reflexivity. }
    rewrite G by exact H1. reflexivity.
Qed.
Print Assumptions bottom_not_kept.

(** Finding: without names the borders that were given are not used, not even to refuse them. *)
Theorem borders_ignored service nodes count pick order amount bottom top reqs :
  set_materials service nodes count pick order amount None bottom top reqs = set_materials service nodes count pick order amount None None None reqs.
Proof. reflexivity. Qed.
Print Assumptions borders_ignored.

(** Three works, 0 a service unit. *)
Example materials_example :
  fair (fun _ lo _ => lo) (fun n j k => (n + j) mod k)%nat (fun _ l => l) (fun n i => 60 + Z.of_nat (i mod 2)) /\
  asked (Some [7; 8; 9]%nat) None None [7; 8; 9]%nat 1 3 /\ asked (Some [7; 8; 9]%nat) (Some 2%nat) None [7; 8; 9]%nat 2 3 /\
  match set_materials (Nat.eqb 0) [0; 1; 2]%nat (fun _ lo _ => lo) (fun n j k => (n + j) mod k)%nat (fun _ l => l) (fun n i => 60 + Z.of_nat (i mod 2)) (Some [7; 8; 9]%nat) (Some 2%nat) None (fun _ => []) with
  | MaterialsSet r => map r [0; 1; 2]%nat = [[]; [(8%nat, 60); (9%nat, 61)]; [(9%nat, 60); (7%nat, 61)]]
  | _ => False
  end.
Proof.
  split; [constructor; intros; [lia|apply Nat.mod_upper_bound; lia|reflexivity|assert (Q := Nat.mod_upper_bound i 2 ltac:(lia)); lia]|]. split; [cbn; auto|]. split; [cbn; auto|]. vm_compute. reflexivity.
Qed.
