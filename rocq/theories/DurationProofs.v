(** The durations of scheduled works. *)
From Coq Require Import ZArith List Bool Lia.
From Verif Require Import TimeModel MomentumModel JITModel GraphModel ScheduleModel.
Import ListNotations.
Local Open Scope Z_scope.

Lemma chain_exec_times g est bound base team : forall chain exec e times,
  chain_exec g est bound base team exec chain = (e, times) ->
  map snd times = map (fun n => match reqs_of g n with [] => 0 | _ => est n team end) chain.
Proof.
  induction chain as [|n r IH]; intros exec e times H; simpl in H; [injection H as _ <-; reflexivity|].
  destruct (chain_exec _ _ _ _ _ _ r) as [e' l] eqn:E. injection H as _ <-. simpl. f_equal. eapply IH. exact E.
Qed.

Lemma place_durations team c (P : nat -> swork -> Prop) : forall chain times curr sd fin sd',
  (forall n w, In (n, w) sd -> P n w) ->
  (forall n t s, In (n, t) (combine chain (map snd times)) -> P n (SW s (tadd s t) team c)) ->
  place_chain team c curr chain times sd = (fin, sd') ->
  forall n w, In (n, w) sd' -> P n w.
Proof.
  induction chain as [|m cr IH]; intros times curr sd fin sd' Hsd Hnew H n w Hin; simpl in H.
  - injection H as _ <-. auto.
  - destruct times as [|[lag t] tr]; [injection H as _ <-; auto|].
    eapply IH; [| |exact H|exact Hin].
    + intros n' w' [[= <- <-]|Hin']; [|auto]. apply Hnew. left. reflexivity.
    + intros. apply Hnew. right. assumption.
Qed.
Lemma combine_map_fun {A B} (f : A -> B) l x y : In (x, y) (combine l (map f l)) -> y = f x.
Proof. induction l as [|z l IH]; simpl; [tauto|]. intros [[= <- <-]|H]; auto. Qed.

Section Durations.
  Variable (g : graph) (est : nat -> list worker -> Z) (spec : nat -> work_spec).
  Hypothesis Hno : forall n, sp_time (spec n) = None.

  Definition momentum_duration (n : nat) (w : swork) : Prop :=
    sw_finish w = tadd (sw_start w) (match reqs_of g n with [] => 0 | _ => est n (sw_team w) end).
  Definition jit_duration (n : nat) (w : swork) : Prop :=
    sw_finish w = tadd (sw_start w) (est n (sw_team w)).

  Lemma momentum_schedule_durations sd s n team c h st apt sd' s' :
    (forall m w, In (m, w) sd -> momentum_duration m w) ->
    momentum_schedule g est sd s n team c (spec h) st apt = Some (sd', s') ->
    forall m w, In (m, w) sd' -> momentum_duration m w.
  Proof.
    intros Hsd H m w Hin. unfold momentum_schedule in H. rewrite Hno in H.
    destruct (chain_of g n) as [chain|] eqn:Ech; [|discriminate].
    destruct (momentum_find _ _ _ _ _ _ _ _ _) as [[[st0 ft0] times0]|] eqn:Ef; [|discriminate].
    unfold momentum_find in Ef. rewrite Ech in Ef.
    destruct (chain_exec _ _ _ _ _ _ _) as [exec tms] eqn:Ec. apply chain_exec_times in Ec.
    assert (times0 = tms).
    { destruct team as [|w0 tw]; [congruence|].
      destruct st; [|destruct (find_min_start_time _ _ _ _ _ _ _); [|discriminate]];
        destruct (validate _ _ _ _); congruence. }
    subst times0. destruct (place_chain _ _ _ _ _ _) as [fin sd1] eqn:Ep.
    destruct (update_timeline _ _ _ _); [|discriminate]. injection H as <- _.
    eapply place_durations; [exact Hsd| |exact Ep|exact Hin].
    intros m' t s0 Hin'. rewrite Ec in Hin'. apply combine_map_fun in Hin'. subst t. reflexivity.
  Qed.

  Lemma jit_place_durations team c : forall chain curr sd fin sd',
    (forall m w, In (m, w) sd -> jit_duration m w) ->
    jit_place g est team c curr chain None sd = Some (fin, sd') ->
    forall m w, In (m, w) sd' -> jit_duration m w.
  Proof.
    induction chain as [|n cr IH]; intros curr sd fin sd' Hsd H m w Hin; simpl in H.
    - injection H as _ <-. auto.
    - destruct (match inseparable_parent g n with Some _ => _ | None => _ end); [|discriminate].
      eapply IH; [|exact H|exact Hin]. intros m' w' [[= <- <-]|Hin']; [reflexivity|auto].
  Qed.
  Lemma jit_schedule_durations sd s n team c h st apt sd' s' :
    (forall m w, In (m, w) sd -> jit_duration m w) ->
    jit_schedule g est sd s n team c (spec h) st apt = Some (sd', s') ->
    forall m w, In (m, w) sd' -> jit_duration m w.
  Proof.
    intros Hsd H. unfold jit_schedule in H. rewrite Hno in H. destruct (chain_of g n) as [chain|]; [|discriminate].
    destruct (match st with Some a => _ | None => _ end) as [x|]; [|discriminate].
    destruct (jit_place _ _ _ _ _ _ _ _) as [[fin sd1]|] eqn:E; [|discriminate].
    destruct (jit_update _ _ _ _); [|discriminate]. injection H as <- _. eapply jit_place_durations; eassumption.
  Qed.

  Lemma loop_durations tstate find schedule reqs optimize cs (P : nat -> swork -> Prop) apt :
    (forall sd s n team c h st apt sd' s', (forall m w, In (m, w) sd -> P m w) ->
       schedule sd s n team c (spec h) st apt = Some (sd', s') -> forall m w, In (m, w) sd' -> P m w) ->
    forall nodes first sd s sd' s', (forall m w, In (m, w) sd -> P m w) ->
    build_loop tstate find schedule reqs optimize cs spec first apt nodes sd s = Done (sd', s') ->
    forall m w, In (m, w) sd' -> P m w.
  Proof.
    intros Hs. induction nodes as [|n nodes IH]; intros first sd s sd' s' Hsd H; cbn [build_loop] in H; [injection H as <- _; exact Hsd|].
    destruct (build_step _ _ _ _ _ _ _ _ _ _ _ _ _) as [[sd1 s1]| |] eqn:E; try discriminate.
    eapply IH; [|exact H]. clear H IH. unfold build_step in E.
    destruct (run_contractor_search _ _ _) as [[[[st ft] ct] team]| |]; try discriminate.
    destruct (schedule _ _ _ _ _ _ _ _) as [[sd2 s2]|] eqn:E2; [|discriminate].
    injection E as -> ->. eapply Hs; eassumption.
  Qed.
End Durations.
