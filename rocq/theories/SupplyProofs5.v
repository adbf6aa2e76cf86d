(** The stock of a platform. *)
From Coq Require Import ZArith List Bool Lia Arith Sorted Permutation ZifyBool ZifyNat.
From Verif Require Import TimeModel MomentumSpec SupplyModel SupplySpec SupplyProofs SupplyProofs2 SupplyProofs3 SupplyProofs4.
Import ListNotations.
Local Open Scope Z_scope.
Section Stock.
  Variable route : Z -> nat -> nat -> list nat.
  Variable overcome : nat -> Z.
  Variable holders : nat -> list depot.
  Variable storage : nat -> nat -> Z.

  Lemma add_event_in l t c e : In e (add_event l t c) -> e = Ev t c \/ In e l.
  Proof.
    unfold add_event. assert (E := span_spec (fun e => ev_time e <=? t) l). unfold upto. destruct (span _ l) as [a b]. cbn [fst snd] in E. destruct E as [-> _].
    intros H. apply in_app_or in H as [H|[<-|H]]; [right; apply in_or_app; auto|left; reflexivity|right; apply in_or_app; auto].
  Qed.
  Lemma update_platform_events plat us plat' t : (forall u, In u us -> snd u = t) -> update_platform plat us = Fine plat' ->
    forall m l e, plat' m = Some l -> In e l -> ev_time e = t \/ exists l0, plat m = Some l0 /\ In e l0.
  Proof.
    revert plat. induction us as [|[[k c] u] us IH]; intros plat Hu E m l e Hl He; simpl in E; [injection E as <-; right; eauto|].
    destruct (plat k) as [lk|] eqn:Ek; [|discriminate]. destruct (IH _ ltac:(intros x Hx; apply Hu; right; exact Hx) E m l e Hl He) as [H|(l0 & H1 & H2)]; [left; exact H|].
    unfold upd in H1. destruct (Nat.eqb_spec m k) as [->|]; [|right; eauto]. injection H1 as <-. apply add_event_in in H2 as [->|H2]; [|right; eauto].
    left. apply (Hu (k, c, u)). left. reflexivity.
  Qed.
  (** Platforms are changed by [update_platform] at the answered time only. *)
  Lemma deliver_platform s p deadline needs o t s' : deliver route overcome holders storage s p deadline needs = Fine (o, t, s') ->
    s' = s \/ exists us plat m v r, (forall u, In u us -> snd u = t) /\ update_platform (su_plat s p) us = Fine plat /\ s' = Sup m v r (upd (su_plat s) p plat).
  Proof.
    unfold deliver. destruct needs as [|nd needs']; [intros [= <- <- <-]; left; reflexivity|]. set (needs := nd :: needs').
    destruct (to_deliver storage (su_plat s p) p needs deadline) as [r| |]; try discriminate. cbn [bind].
    destruct (match r with [] => _ | _ => _ end) as [ok| |]; try discriminate. cbn [bind]. destruct ok.
    - destruct (update_platform _ _) as [plat| |] eqn:E; try discriminate. cbn [bind]. intros [= <- <- <-]. right. eexists _, plat, _, _, _. split; [|split; [exact E|reflexivity]].
      intros u Hu. apply in_map_iff in Hu as (x & <- & _). reflexivity.
    - destruct r as [|r0 r']; [intros [= <- <- <-]; left; reflexivity|]. unfold supply_resources.
      destruct (find_supply _ _ _ _ _ _ _) as [f| |]; try discriminate. cbn [bind].
      destruct (update_platform _ _) as [plat| |] eqn:E; try discriminate. cbn [bind].
      destruct (book_mats _ _ _) as [mats| |]; try discriminate. cbn [bind]. destruct (book (su_vehs s (dp_id (f_depot f))) _ _ _) as [vehs|]; try discriminate.
      destruct (book_roads _ _) as [roads| |]; try discriminate. cbn [bind fst snd dl_arrives]. intros [= <- <- <-]. right. eexists _, plat, _, _, _. split; [|split; [exact E|reflexivity]].
      intros u Hu. apply in_map_iff in Hu as (x & <- & _). reflexivity.
  Qed.
  Lemma history_events calls p s out s' : history_of route overcome holders storage s calls = Fine (out, s') ->
    forall m l e, su_plat s' p m = Some l -> In e l -> (exists l0, su_plat s p m = Some l0 /\ In e l0) \/ exists c o, In (c, o, ev_time e) out /\ c_platform c = p.
  Proof.
    revert s out. induction calls as [|c calls IH]; intros s out E m l e Hl He; cbn [history_of] in E; [injection E as <- <-; left; eauto|].
    destruct (deliver route overcome holders storage s (c_platform c) (c_deadline c) (c_needs c)) as [[[o t] s1]| |] eqn:Ed; try discriminate; [|apply (IH _ _ E m l e Hl He)].
    destruct (history_of route overcome holders storage s1 calls) as [[out1 s2]| |] eqn:Eh; try discriminate. cbn [bind fst snd] in E. injection E as <- <-.
    destruct (IH _ _ Eh m l e Hl He) as [(l0 & H1 & H2)|(c0 & o0 & H1 & H2)]; [|right; exists c0, o0; split; [right; exact H1|exact H2]].
    destruct (deliver_platform _ _ _ _ _ _ _ Ed) as [->|(us & plat & m' & v & r & U1 & U2 & ->)]; [left; eauto|]. cbn [su_plat] in H1. unfold upd in H1.
    destruct (Nat.eqb_spec p (c_platform c)) as [->|]; [|left; eauto]. destruct (update_platform_events _ _ _ t U1 U2 m l0 e H1 H2) as [Et|G]; [|left; exact G].
    right. exists c, o. split; [left; rewrite Et; reflexivity|reflexivity].
  Qed.

  (** One material, works in the order of time. *)
  Definition holds (l : events) (now before : Z) : Prop := (forall e, In e l -> ev_time e <= now) /\ exists e, last_event l = Some e /\ ev_count e = before.
  Lemma holds_upto l now before t : holds l now before -> now <= t -> upto l t = (l, []) /\ available l t = before.
  Proof.
    intros [H (e & E1 & E2)] L. assert (E : upto l t = (l, [])).
    { apply upto_unique; [rewrite app_nil_r; reflexivity|intros x Hx; specialize (H x Hx); lia|intros ? []]. }
    split; [exact E|]. unfold available. rewrite E. cbn [fst]. rewrite E1. exact E2.
  Qed.
  Lemma holds_add l now before t c : holds l now before -> now <= t -> holds (add_event l t c) t c.
  Proof.
    intros H L. destruct (holds_upto _ _ _ _ H L) as [E _]. unfold add_event. rewrite E. split.
    - intros e He. apply in_app_or in He as [He|[<-|[]]]; [destruct H as [H _]; specialize (H e He); lia|simpl; lia].
    - exists (Ev t c). rewrite last_event_app. split; reflexivity.
  Qed.
  Lemma deliver_other s p deadline needs o t s' q : deliver route overcome holders storage s p deadline needs = Fine (o, t, s') -> q <> p -> su_plat s' q = su_plat s q.
  Proof.
    intros H N. destruct (deliver_platform _ _ _ _ _ _ _ H) as [->|(us & plat & m' & v & r & U1 & U2 & ->)]; [reflexivity|]. cbn [su_plat]. unfold upd. destruct (Nat.eqb_spec q p); [contradiction|reflexivity].
  Qed.
  Lemma stock_book_ok p m calls s out s' now before l : history_of route overcome holders storage s calls = Fine (out, s') ->
    (forall c, In c calls -> c_platform c = p -> c_needs c = [] \/ exists n, c_needs c = [(m, n)] /\ 0 <= n <= storage p m) ->
    chronological now (at_platform p out) -> su_plat s p m = Some l -> holds l now before -> 0 <= before <= storage p m ->
    stock_book m (storage p m) before (at_platform p out).
  Proof.
    revert s out now before l. induction calls as [|c calls IH]; intros s out now before l E Hc Hch Hl Hh Hb; cbn [history_of] in E; [injection E as <- <-; simpl; auto|].
    destruct (deliver route overcome holders storage s (c_platform c) (c_deadline c) (c_needs c)) as [[[o t] s1]| |] eqn:Ed; try discriminate.
    2:{ apply (IH s out now before l); try assumption. intros c0 H0. apply Hc. right. exact H0. }
    destruct (history_of route overcome holders storage s1 calls) as [[out1 s2]| |] eqn:Eh; try discriminate. cbn [bind fst snd] in E. injection E as <- <-.
    unfold at_platform in *. cbn [filter fst snd] in *. destruct (Nat.eqb_spec (c_platform c) p) as [Ep|Np].
    2:{ apply (IH s1 out1 now before l); try assumption; [intros c0 H0; apply Hc; right; exact H0|]. rewrite (deliver_other _ _ _ _ _ _ _ p Ed ltac:(congruence)). exact Hl. }
    cbn [chronological] in Hch. destruct Hch as [Hnow Hch]. cbn [stock_book]. split; [exact Hb|]. rewrite Ep in Ed.
    assert (Hc' : forall c0, In c0 calls -> c_platform c0 = p -> c_needs c0 = [] \/ exists n, c_needs c0 = [(m, n)] /\ 0 <= n <= storage p m) by (intros c0 H0; apply Hc; right; exact H0).
    destruct (Hc c (or_introl eq_refl) Ep) as [En|(n & En & Hn)]; rewrite En in *.
    - left. cbn [deliver] in Ed. injection Ed as <- <- <-. split; [reflexivity|]. split; [reflexivity|]. apply (IH s out1 (c_deadline c) before l); try assumption.
      destruct Hh as [H1 H2]. split; [intros e He; specialize (H1 e He); lia|exact H2].
    - right. exists n. split; [reflexivity|]. unfold deliver in Ed. cbn [to_deliver] in Ed. rewrite Hl in Ed. cbn [bind] in Ed.
      destruct (holds_upto _ _ _ _ Hh Hnow) as [Eu Ea]. rewrite Ea in Ed. destruct (Z.ltb_spec before n) as [L|L].
      + cbn [bind] in Ed. unfold supply_resources in Ed. set (r := [(m, storage p m - before)]) in Ed.
        destruct (find_supply route overcome holders s p (c_deadline c) r) as [f| |] eqn:Ef; try discriminate. cbn [bind] in Ed.
        assert (Hlate := find_supply_late _ _ _ storage _ _ _ _ _ Ef). unfold r in Ed at 1. cbn [map fst snd amount] in Ed. rewrite Nat.eqb_refl in Ed.
        cbn [update_platform] in Ed. rewrite Hl in Ed. cbn [bind] in Ed.
        destruct (holds_upto _ _ _ (f_arrives f) Hh ltac:(lia)) as [_ Ea2]. rewrite Ea2 in Ed.
        destruct (book_mats _ _ _) as [mats| |]; try discriminate. cbn [bind] in Ed. destruct (book (su_vehs s (dp_id (f_depot f))) _ _ _) as [vehs|]; try discriminate.
        destruct (book_roads _ _) as [roads| |]; try discriminate. cbn [bind fst snd dl_arrives] in Ed. injection Ed as <- <- <-.
        split; [exact L|]. split; [reflexivity|].
        apply (IH _ out1 (f_arrives f) (storage p m - n) (add_event l (f_arrives f) (before - (n - (storage p m - before)))) Eh Hc' Hch).
        * cbn [su_plat]. unfold upd. rewrite !Nat.eqb_refl. reflexivity.
        * replace (storage p m - n) with (before - (n - (storage p m - before))) by lia. apply (holds_add l now before); [exact Hh|lia].
        * lia.
      + cbn [bind] in Ed. cbn [platform_ready] in Ed. rewrite Hl, Eu in Ed. cbn [snd length bind] in Ed. change (Nat.ltb 1 0) with false in Ed. cbn [bind] in Ed. cbn [map fst snd update_platform] in Ed.
        rewrite Hl, Ea in Ed. cbn [bind] in Ed. injection Ed as <- <- <-. split; [exact L|].
        apply (IH _ out1 (c_deadline c) (before - n) (add_event l (c_deadline c) (before - n)) Eh Hc' Hch).
        * cbn [su_plat]. unfold upd. rewrite !Nat.eqb_refl. reflexivity.
        * apply (holds_add l now before); [exact Hh|exact Hnow].
        * lia.
  Qed.
End Stock.
(** ** A last call *)
Section Last.
  Variable route : Z -> nat -> nat -> list nat.
  Variable overcome : nat -> Z.
  Variable holders : nat -> list depot.
  Variable storage : nat -> nat -> Z.
  Lemma update_platform_refused plat us : update_platform plat us <> Refused.
  Proof. revert plat. induction us as [|[[m c] t] us IH]; intros plat; simpl; [discriminate|]. destruct (plat m); [apply IH|discriminate]. Qed.
  Lemma book_mats_refused mats t r : book_mats mats t r <> Refused.
  Proof. revert mats. induction r as [|[m c] r IH]; intros mats; simpl; [discriminate|]. destruct (mats m); [|discriminate]. destruct (book _ _ _ _); [apply IH|discriminate]. Qed.
  Lemma book_roads_refused roads bs : book_roads roads bs <> Refused.
  Proof. revert roads. induction bs as [|[r b] bs IH]; intros roads; simpl; [discriminate|]. destruct (book _ _ _ _); [apply IH|discriminate]. Qed.
  Lemma history_last calls c s out s1 : history_of route overcome holders storage s calls = Fine (out, s1) ->
    deliver route overcome holders storage s1 (c_platform c) (c_deadline c) (c_needs c) = Crashed -> history_of route overcome holders storage s (calls ++ [c]) = Crashed.
  Proof.
    revert s out. induction calls as [|c0 calls IH]; intros s out E Hd; cbn [history_of app] in *.
    - injection E as <- <-. rewrite Hd. reflexivity.
    - destruct (deliver route overcome holders storage s (c_platform c0) (c_deadline c0) (c_needs c0)) as [[[o t] s2]| |]; try discriminate; [|apply (IH _ _ E Hd)].
      destruct (history_of route overcome holders storage s2 calls) as [[out1 s3]| |] eqn:Eh; try discriminate. cbn [bind fst snd] in E. injection E as <- <-.
      rewrite (IH _ _ Eh Hd). reflexivity.
  Qed.
  Lemma deliver_exact s p T needs : (needs <> [] -> exists r, to_deliver storage (su_plat s p) p needs T = Fine r /\ platform_ready (su_plat s p) needs T = Fine true /\
       (r <> [] -> exists g, find_supply route overcome holders s p T r = Fine g /\ f_arrives g = T)) ->
    deliver route overcome holders storage s p T needs <> Crashed -> exists o s', deliver route overcome holders storage s p T needs = Fine (o, T, s').
  Proof.
    intros H N. unfold deliver in *. destruct needs as [|nd needs']; [eauto|]. destruct (H ltac:(discriminate)) as (r & Er & Ep & Hg). set (needs := nd :: needs') in *. rewrite Er in *. cbn [bind] in *.
    destruct r as [|r0 r'].
    - rewrite Ep in *. cbn [bind] in *. assert (U := update_platform_refused (su_plat s p) (map (fun x => (fst x, snd x, T)) needs)).
      destruct (update_platform (su_plat s p) (map (fun x => (fst x, snd x, T)) needs)) as [plat| |]; [cbn [bind]; eauto|congruence|cbn [bind] in N; congruence].
    - destruct (Hg ltac:(discriminate)) as (g & Eg & Hga). cbn [bind] in *. unfold supply_resources in *. rewrite Eg in *. cbn [bind] in *.
      assert (U := update_platform_refused (su_plat s p) (map (fun x => (fst x, (match amount (fst x) needs with Some c => c | None => 0 end) - snd x, f_arrives g)) (r0 :: r'))).
      destruct (update_platform _ _) as [plat| |]; [|congruence|cbn [bind] in N; congruence]. cbn [bind] in *.
      assert (U2 := book_mats_refused (su_mats s (dp_id (f_depot g))) (f_leaves g) (r0 :: r')).
      destruct (book_mats _ _ _) as [mats| |]; [|congruence|cbn [bind] in N; congruence]. cbn [bind] in *.
      destruct (book (su_vehs s (dp_id (f_depot g))) _ _ _) as [vehs|]; [|cbn [bind] in N; congruence].
      assert (U3 := book_roads_refused (su_roads s) (f_roads g)). destruct (book_roads _ _) as [roads| |]; [|congruence|cbn [bind] in N; congruence]. cbn [bind fst snd dl_arrives].
      rewrite Hga. eauto.
  Qed.
End Last.
