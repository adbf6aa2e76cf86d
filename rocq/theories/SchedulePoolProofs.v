(** The pool of a list of well-formed contractors. *)
From Coq Require Import ZArith List Bool Lia Arith.
From Verif Require Import TimeModel MomentumModel MomentumSpec MomentumHistory MomentumTeamProofs
  GraphModel ScheduleModel ScheduleSpec.
Import ListNotations.
Local Open Scope Z_scope.

Lemma capacity_app p q a : capacity (p ++ q) a = match capacity p a with Some n => Some n | None => capacity q a end.
Proof. induction p as [|[[c k] n] p IH]; simpl; [reflexivity|]. destruct (_ && _); auto. Qed.
Lemma capacity_one id ws a : capacity (map (fun w : nat * Z => ((id, fst w), snd w)) ws) a
  = if Nat.eqb id (fst a) then assoc_get ws (snd a) else None.
Proof.
  induction ws as [|[k n] ws IH]; simpl; [destruct (Nat.eqb _ _); reflexivity|].
  rewrite IH. destruct (Nat.eqb id (fst a)); simpl; reflexivity.
Qed.
Lemma assoc_get_nodup ws k n : NoDup (map fst ws) -> In (k, n) ws -> assoc_get ws k = Some n.
Proof.
  induction ws as [|[k' n'] ws IH]; simpl; intros Hnd Hin; [destruct Hin|]. inversion Hnd; subst.
  destruct Hin as [[= -> ->]|Hin]; [rewrite Nat.eqb_refl; reflexivity|].
  destruct (Nat.eqb_spec k' k) as [->|]; [|auto]. exfalso. apply H1. apply in_map_iff. exists (k, n). auto.
Qed.
Lemma capacity_pool_none cs id k : ~ In id (map ct_id cs) -> capacity (pool_of cs) (id, k) = None.
Proof.
  induction cs as [|c cs IH]; simpl; intros H; [reflexivity|]. unfold pool_of in *. simpl.
  rewrite capacity_app, capacity_one. simpl. destruct (Nat.eqb_spec (ct_id c) id); [exfalso; auto|auto].
Qed.
Lemma capacity_pool cs ct k n : contractors_ok cs -> In ct cs -> In (k, n) (ct_workers ct) ->
  capacity (pool_of cs) (ct_id ct, k) = Some n.
Proof.
  intros [Hnd Hok]. induction cs as [|c cs IH]; simpl; intros Hct Hin; [destruct Hct|].
  unfold pool_of. simpl. rewrite capacity_app, capacity_one. simpl in *. inversion Hnd; subst.
  destruct Hct as [->|Hct].
  - rewrite Nat.eqb_refl. destruct (Hok ct (or_introl eq_refl)) as [H _].
    rewrite (assoc_get_nodup _ _ _ H Hin). reflexivity.
  - destruct (Nat.eqb_spec (ct_id c) (ct_id ct)) as [E|].
    { exfalso. apply H1. rewrite E. apply in_map. exact Hct. }
    apply IH; auto.
Qed.
Lemma capacity_pool_inv cs id k n : capacity (pool_of cs) (id, k) = Some n ->
  exists ct, In ct cs /\ ct_id ct = id /\ In (k, n) (ct_workers ct).
Proof.
  induction cs as [|c cs IH]; unfold pool_of; simpl; [discriminate|].
  rewrite capacity_app, capacity_one. simpl. intros H.
  destruct (Nat.eqb_spec (ct_id c) id) as [E|].
  - destruct (assoc_get (ct_workers c) k) as [m|] eqn:Ea.
    + injection H as ->. exists c. split; [left; reflexivity|]. split; [exact E|].
      clear -Ea. induction (ct_workers c) as [|[k' n'] ws IHw]; simpl in *; [discriminate|].
      destruct (Nat.eqb_spec k' k); [injection Ea as ->; subst; auto|auto].
    + destruct (IH H) as (ct & H1 & H2 & H3). exists ct. auto.
  - destruct (IH H) as (ct & H1 & H2 & H3). exists ct. auto.
Qed.
Lemma pool_of_ok cs : contractors_ok cs -> pool_ok (pool_of cs).
Proof.
  intros [_ Hok] [id k] n Hin. unfold pool_of in Hin. apply in_concat in Hin as (l & Hl & Hin).
  apply in_map_iff in Hl as (c & <- & Hc). apply in_map_iff in Hin as ([k' n'] & [= <- <- <-] & Hin).
  simpl. destruct (Hok c Hc) as [_ H]. eapply H. exact Hin.
Qed.
Lemma capacity_pool_own cs ct k n : contractors_ok cs -> In ct cs ->
  capacity (pool_of cs) (ct_id ct, k) = Some n -> In (k, n) (ct_workers ct).
Proof.
  intros [Hnd _] Hct H. apply capacity_pool_inv in H as (ct' & Hct' & E & Hin).
  assert (ct' = ct); [|subst; exact Hin]. clear -Hnd Hct Hct' E.
  induction cs as [|c cs IH]; [destruct Hct|]. simpl in *. inversion Hnd; subst.
  destruct Hct as [->|Hct], Hct' as [->|Hct']; auto.
  - exfalso. apply H1. rewrite <- E. apply in_map. exact Hct'.
  - exfalso. apply H1. rewrite E. apply in_map. exact Hct.
Qed.
