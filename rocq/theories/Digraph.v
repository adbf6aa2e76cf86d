(** Directed graphs over numbered nodes: reachability, cycles, topological orders. *)
From Coq Require Import List Arith Lia Bool Relations Sorted Permutation ListDec.
From Verif Require Import ScheduleSpec.
Import ListNotations.

(** [R x y]: an edge from [x] to [y]. *)
Definition path (R : nat -> nat -> Prop) : nat -> nat -> Prop := clos_trans nat R.
Definition path0 (R : nat -> nat -> Prop) : nat -> nat -> Prop := clos_refl_trans nat R.
Definition acyclic (R : nat -> nat -> Prop) : Prop := forall x, ~ path R x x.
(** Every edge between listed nodes goes forward. *)
Definition topological (R : nat -> nat -> Prop) (l : list nat) : Prop :=
  forall x y, R x y -> In x l -> In y l -> comes_before l x y.

(** ** Positions *)
Fixpoint pos (l : list nat) (x : nat) : nat :=
  match l with
  | [] => 0
  | y :: r => if Nat.eqb y x then 0 else S (pos r x)
  end.
Lemma pos_app l1 l2 x : pos (l1 ++ l2) x = if existsb (Nat.eqb x) l1 then pos l1 x else length l1 + pos l2 x.
Proof.
  induction l1 as [|y l1 IH]; simpl; [reflexivity|].
  rewrite (Nat.eqb_sym x y). destruct (Nat.eqb_spec y x); simpl; [reflexivity|]. rewrite IH.
  destruct (existsb (Nat.eqb x) l1); reflexivity.
Qed.
Lemma existsb_in x l : existsb (Nat.eqb x) l = true <-> In x l.
Proof.
  rewrite existsb_exists. split.
  - intros (y & Hy & E). apply Nat.eqb_eq in E. subst. exact Hy.
  - intros H. exists x. split; [exact H|apply Nat.eqb_refl].
Qed.
Lemma existsb_nin x l : existsb (Nat.eqb x) l = false <-> ~ In x l.
Proof. rewrite <- existsb_in. destruct (existsb _ l); split; congruence. Qed.
Lemma pos_lt l x : In x l -> pos l x < length l.
Proof.
  induction l as [|y l IH]; simpl; intros H; [destruct H|]. destruct (Nat.eqb_spec y x); [lia|].
  destruct H as [H|H]; [congruence|]. apply IH in H. lia.
Qed.
Lemma comes_before_in {A} (l : list A) a b : comes_before l a b -> In a l /\ In b l.
Proof.
  intros (p & q & r & ->). split; apply in_or_app; right; [left; reflexivity|].
  right. apply in_or_app. right. left. reflexivity.
Qed.
Lemma comes_before_pos l a b : NoDup l -> (comes_before l a b <-> In a l /\ In b l /\ pos l a < pos l b).
Proof.
  intros Hnd. split.
  - intros H. assert (H' := comes_before_in _ _ _ H). destruct H' as [Ha Hb]. split; [exact Ha|]. split; [exact Hb|].
    destruct H as (p & q & r & ->). apply NoDup_remove in Hnd as [Hnd Hn].
    rewrite !pos_app. assert (E1 : existsb (Nat.eqb a) p = false).
    { apply existsb_nin. intros H. apply Hn. apply in_or_app. auto. }
    assert (Hb' : ~ In b p).
    { intros H. clear -Hnd H. rewrite app_assoc in Hnd. apply NoDup_remove in Hnd as [_ Hnd]. apply Hnd.
      rewrite <- app_assoc. apply in_or_app. auto. }
    rewrite E1. apply existsb_nin in Hb'. rewrite Hb'. simpl. rewrite Nat.eqb_refl.
    destruct (Nat.eqb_spec a b) as [->|]; [|lia]. exfalso. apply Hn. apply in_or_app. right. apply in_or_app. right. left. reflexivity.
  - clear Hnd. intros (Ha & Hb & Hlt). induction l as [|x l IH]; [destruct Ha|]. simpl in Hlt.
    destruct (Nat.eqb_spec x a) as [->|Hxa].
    + destruct (Nat.eqb_spec a b) as [->|Hxb]; [lia|]. destruct Hb as [Hb|Hb]; [congruence|].
      apply in_split in Hb as (l2 & l3 & ->). exists [], l2, l3. reflexivity.
    + destruct (Nat.eqb_spec x b) as [->|Hxb]; [lia|].
      destruct Ha as [Ha|Ha]; [congruence|]. destruct Hb as [Hb|Hb]; [congruence|].
      destruct (IH Ha Hb) as (p & q & r & ->); [lia|]. exists (x :: p), q, r. reflexivity.
Qed.
Lemma comes_before_app_l {A} (l1 l2 : list A) a b : comes_before l1 a b -> comes_before (l1 ++ l2) a b.
Proof. intros (p & q & r & ->). exists p, q, (r ++ l2). rewrite <- !app_assoc. simpl. rewrite <- app_assoc. reflexivity. Qed.
Lemma comes_before_app_r {A} (l1 l2 : list A) a b : comes_before l2 a b -> comes_before (l1 ++ l2) a b.
Proof. intros (p & q & r & ->). exists (l1 ++ p), q, r. rewrite <- app_assoc. reflexivity. Qed.
Lemma comes_before_app_lr {A} (l1 l2 : list A) a b : In a l1 -> In b l2 -> comes_before (l1 ++ l2) a b.
Proof.
  intros Ha Hb. apply in_split in Ha as (p & q & ->). apply in_split in Hb as (r & s & ->).
  exists p, (q ++ r), s. rewrite <- !app_assoc. reflexivity.
Qed.
Lemma comes_before_trans (l : list nat) a b c : NoDup l -> comes_before l a b -> comes_before l b c -> comes_before l a c.
Proof.
  intros Hnd H1 H2. apply comes_before_pos in H1; [|exact Hnd]. apply comes_before_pos in H2; [|exact Hnd].
  apply comes_before_pos; [exact Hnd|]. intuition lia.
Qed.
Lemma comes_before_irrefl (l : list nat) a : NoDup l -> ~ comes_before l a a.
Proof. intros Hnd H. apply comes_before_pos in H; [|exact Hnd]. lia. Qed.
Lemma comes_before_asym (l : list nat) a b : NoDup l -> comes_before l a b -> ~ comes_before l b a.
Proof. intros Hnd H1 H2. apply (comes_before_irrefl l a Hnd). eapply comes_before_trans; eauto. Qed.
Lemma comes_before_total (l : list nat) a b : In a l -> In b l -> a <> b -> comes_before l a b \/ comes_before l b a.
Proof.
  intros Ha Hb Hne. induction l as [|x l IH]; [destruct Ha|]. destruct Ha as [->|Ha], Hb as [->|Hb].
  - congruence.
  - left. apply (comes_before_app_lr [a] l); [left; reflexivity|exact Hb].
  - right. apply (comes_before_app_lr [b] l); [left; reflexivity|exact Ha].
  - destruct (IH Ha Hb) as [H|H]; [left|right]; apply (comes_before_app_r [x] l); exact H.
Qed.

(** ** Cycles *)
Lemma walk_exists (R : nat -> nat -> Prop) S x0 : In x0 S -> (forall x, In x S -> exists y, In y S /\ R x y) ->
  forall k, exists l, length l = k /\ incl l S /\ StronglySorted (fun a b => path R b a) l.
Proof.
  intros H0 Hs. induction k as [|k (l & Hl & Hin & Hw)].
  - exists []. split; [reflexivity|]. split; [intros x []|constructor].
  - destruct l as [|x l].
    + exists [x0]. simpl in *. split; [lia|]. split; [intros y [<-|[]]; exact H0|repeat constructor].
    + destruct (Hs x) as (y & Hy & Hr); [apply Hin; left; reflexivity|].
      exists (y :: x :: l). split; [simpl in *; lia|]. split; [intros z [<-|Hz]; auto|].
      constructor; [exact Hw|]. constructor; [apply t_step; exact Hr|].
      apply StronglySorted_inv in Hw as [_ Hw]. eapply Forall_impl; [|exact Hw].
      simpl. intros z Hz. eapply t_trans; [exact Hz|apply t_step; exact Hr].
Qed.
Lemma dup_split (l : list nat) : ~ NoDup l -> exists a l1 l2 l3, l = l1 ++ a :: l2 ++ a :: l3.
Proof.
  induction l as [|x l IH]; intros H; [destruct H; constructor|].
  destruct (in_dec Nat.eq_dec x l) as [Hx|Hx].
  - apply in_split in Hx as (l2 & l3 & ->). exists x, [], l2, l3. reflexivity.
  - destruct IH as (a & l1 & l2 & l3 & ->); [intros Hd; apply H; constructor; assumption|].
    exists a, (x :: l1), l2, l3. reflexivity.
Qed.
(** A finite set in which every node has a successor contains a cycle. *)
Lemma finite_cycle (R : nat -> nat -> Prop) S : S <> [] -> (forall x, In x S -> exists y, In y S /\ R x y) ->
  exists x, In x S /\ path R x x.
Proof.
  intros Hne Hs. destruct S as [|x0 S0] eqn:ES; [congruence|]. rewrite <- ES in *. clear Hne.
  destruct (walk_exists R S x0) with (k := Datatypes.S (length S)) as (l & Hl & Hin & Hw); [rewrite ES; left; reflexivity|exact Hs|].
  assert (Hd : ~ NoDup l) by (intros Hd; apply (NoDup_incl_length Hd) in Hin; lia).
  apply dup_split in Hd as (a & l1 & l2 & l3 & ->). exists a.
  split; [apply Hin; apply in_or_app; right; left; reflexivity|].
  clear -Hw. induction l1 as [|y l1 IH]; simpl in Hw; apply StronglySorted_inv in Hw as [Hw Hf]; [|auto].
  rewrite Forall_forall in Hf. apply Hf. apply in_or_app. right. left. reflexivity.
Qed.
Lemma topological_path R l : NoDup l -> topological R l -> (forall x y, R x y -> In x l /\ In y l) ->
  forall x y, path R x y -> comes_before l x y.
Proof.
  intros Hnd Ht Hc x y H. induction H as [x y H|x y z _ IH1 _ IH2].
  - apply Ht; [exact H| |]; apply (Hc x y H).
  - eapply comes_before_trans; eauto.
Qed.
Lemma topological_acyclic R l : NoDup l -> topological R l -> (forall x y, R x y -> In x l /\ In y l) -> acyclic R.
Proof. intros Hnd Ht Hc x H. eapply comes_before_irrefl; [exact Hnd|]. eapply topological_path; eauto. Qed.
(** Walks in an acyclic graph have no repetitions. *)
Lemma walk_nodup R l : acyclic R -> StronglySorted (path R) l -> NoDup l.
Proof.
  intros Ha. induction 1 as [|x l Hl IH Hf]; constructor; [|exact IH].
  intros Hx. rewrite Forall_forall in Hf. apply (Ha x). apply Hf. exact Hx.
Qed.
Lemma path0_path R x y : path0 R x y -> x = y \/ path R x y.
Proof.
  induction 1 as [x y H|x|x y z _ [->|IH1] _ [->|IH2]]; auto.
  - right. apply t_step. exact H.
  - right. eapply t_trans; eauto.
Qed.
Lemma path_path0 R x y : path R x y -> path0 R x y.
Proof. induction 1; [apply rt_step; assumption|eapply rt_trans; eauto]. Qed.
Lemma path_flip R x y : path R x y <-> path (fun a b => R b a) y x.
Proof.
  split; induction 1; try (apply t_step; assumption); eapply t_trans; eauto.
Qed.
Lemma acyclic_flip R : acyclic R -> acyclic (fun a b => R b a).
Proof. intros H x Hx. apply (H x). apply path_flip. exact Hx. Qed.
(** An acyclic relation over a finite set has minimal elements. *)
Lemma acyclic_minimal (R : nat -> nat -> Prop) S : acyclic R -> S <> [] ->
  ~ (forall x, In x S -> exists y, In y S /\ R y x).
Proof.
  intros Ha Hne H. destruct (finite_cycle (fun a b => R b a) S Hne H) as (x & _ & Hp).
  apply (Ha x). apply path_flip. exact Hp.
Qed.
Lemma path0_last R x y : path0 R x y -> x = y \/ exists p, path0 R x p /\ R p y.
Proof.
  intros H. apply clos_rt_rtn1 in H. destruct H as [|p y Hp H]; [auto|]. right. exists p. split; [|exact Hp].
  apply clos_rtn1_rt. exact H.
Qed.
