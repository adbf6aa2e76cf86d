(** Lemmas about the contractor search, worker borders and spec-driven teams. *)
From Coq Require Import ZArith List Bool Lia Arith.
From Coq Require Import ZifyBool ZifyNat.
From Verif Require Import TimeModel MomentumModel MomentumSpec GraphModel ScheduleModel.
Import ListNotations.
Local Open Scope Z_scope.

Section Search.
  Variable team : Type.
  Variable runner : contractor -> outcome (Z * Z * team).
  Hypothesis Hrange : forall c st ft tm, runner c = Done (st, ft, tm) -> - TIME_INF <= ft <= TIME_INF.

  Definition finish_of (c : contractor) (ft : Z) : Prop := exists st tm, runner c = Done (st, ft, tm).
  (** [c] with finish [ft] is at least as good as [c']. *)
  Definition at_least_as_good (c : contractor) (ft : Z) (c' : contractor) : Prop :=
    exists ft', finish_of c' ft' /\
      (is_inf ft' = true \/ ft < ft' \/ (ft = ft' /\ contractor_size c <= contractor_size c')).

  Lemma search_loop_spec : forall cs best bf bs res,
    search_loop runner cs best bf bs = Done res ->
    match best with
    | None => bf = TIME_INF /\ bs = None
    | Some b => finish_of b bf /\ is_inf bf = false /\ bs = Some (contractor_size b)
    end ->
    match res with
    | None => best = None /\ forall c, In c cs -> exists ft, finish_of c ft /\ is_inf ft = true
    | Some c => (best = Some c \/ In c cs) /\ exists ft, finish_of c ft /\ is_inf ft = false /\
                 (forall c', In c' cs -> at_least_as_good c ft c') /\
                 (forall b, best = Some b -> at_least_as_good c ft b)
    end.
  Proof.
    induction cs as [|c cs IH]; intros best bf bs res Hrun Hinv.
    - simpl in Hrun. injection Hrun as <-. destruct best as [b|].
      + destruct Hinv as (H1 & H2 & H3). split; [left; reflexivity|]. exists bf.
        split; [exact H1|]. split; [exact H2|]. split; [intros c' []|].
        intros b' [= <-]. exists bf. split; [exact H1|]. right; right. lia.
      + split; [reflexivity|intros c []].
    - cbn [search_loop] in Hrun. destruct (runner c) as [[[st ft] tm]| |] eqn:Er; try discriminate.
      assert (Hr := Hrange c st ft tm Er).
      assert (Hfc : finish_of c ft) by (exists st, tm; exact Er).
      set (smaller := match bs with None => true | Some b => contractor_size c <? b end) in *.
      destruct (negb (is_inf ft) && (tlt ft bf || (teq ft bf && smaller))) eqn:Ec.
      + apply andb_true_iff in Ec as [Ec1 Ec2]. apply negb_true_iff in Ec1.
        assert (H := IH (Some c) ft (Some (contractor_size c)) res Hrun (conj Hfc (conj Ec1 eq_refl))).
        destruct res as [r|]; [|destruct H; discriminate].
        destruct H as (Hin & ft' & A1 & A2 & A3 & A4). split.
        { right. destruct Hin as [[= ->]|Hin]; [left; reflexivity|right; exact Hin]. }
        exists ft'. split; [exact A1|]. split; [exact A2|]. assert (Hc := A4 c eq_refl). split.
        * intros c' [<-|Hc']; [exact Hc|apply A3; exact Hc'].
        * intros b ->. destruct Hinv as (B1 & B2 & B3). exists bf. split; [exact B1|].
          destruct Hc as (ft2 & (st2 & tm2 & C1) & C2). rewrite Er in C1. injection C1 as -> -> ->.
          rewrite Ec1 in C2. unfold smaller in Ec2. rewrite B3 in Ec2. unfold tlt, teq in Ec2.
          apply orb_true_iff in Ec2 as [Ec2|Ec2]; [right; left; lia|].
          apply andb_true_iff in Ec2 as [Ea Eb]. apply Z.eqb_eq in Ea. apply Z.ltb_lt in Eb.
          destruct C2 as [C2|[C2|C2]]; [discriminate| |]; right; lia.
      + assert (H := IH best bf bs res Hrun Hinv). destruct res as [r|].
        * destruct H as (Hin & ft' & A1 & A2 & A3 & A4). split; [destruct Hin; simpl; auto|].
          exists ft'. split; [exact A1|]. split; [exact A2|]. split; [|exact A4].
          intros c' [<-|Hc']; [|apply A3; exact Hc'].
          exists ft. split; [exact Hfc|].
          apply andb_false_iff in Ec as [Ec|Ec]; [left; apply negb_false_iff in Ec; exact Ec|].
          apply orb_false_iff in Ec as [Ea Eb]. unfold tlt, teq in *. apply Z.ltb_ge in Ea.
          destruct best as [b|].
          -- destruct Hinv as (B1 & B2 & B3). destruct (A4 b eq_refl) as (ft2 & (st2 & tm2 & C1) & C2).
             destruct B1 as (st1 & tm1 & B1). rewrite B1 in C1. injection C1 as -> -> ->.
             rewrite B2 in C2. unfold smaller in Eb. rewrite B3 in Eb.
             destruct (Z.eqb_spec ft ft2) as [E|E]; [|right; left; destruct C2 as [C2|C2]; [discriminate|lia]].
             simpl in Eb. apply Z.ltb_ge in Eb. subst ft2.
             right. destruct C2 as [C2|[C2|C2]]; [discriminate|lia|lia].
          -- destruct Hinv as [-> _]. assert (ft = TIME_INF) by lia. subst ft.
             left. vm_compute. reflexivity.
        * destruct H as [-> H]. split; [reflexivity|]. destruct Hinv as [-> ->].
          intros c' [<-|Hc']; [|apply H; exact Hc']. exists ft. split; [exact Hfc|].
          apply andb_false_iff in Ec as [Ec|Ec]; [apply negb_false_iff in Ec; exact Ec|].
          apply orb_false_iff in Ec as [Ea Eb]. unfold tlt in Ea. apply Z.ltb_ge in Ea.
          assert (ft = TIME_INF) by lia. subst ft. vm_compute. reflexivity.
  Qed.

  Lemma search_loop_no_contractor : (forall c, runner c <> NoContractor) ->
    forall cs best bf bs, search_loop runner cs best bf bs <> NoContractor.
  Proof.
    intros Hno. induction cs as [|c cs IH]; intros best bf bs; simpl; [discriminate|].
    destruct (runner c) as [[[st ft] tm]| |] eqn:Er; [|exfalso; apply (Hno c Er)|discriminate].
    destruct (negb (is_inf ft) && _); apply IH.
  Qed.
  Lemma search_loop_total : forall cs, (forall c, In c cs -> exists r, runner c = Done r) ->
    forall best bf bs, exists res, search_loop runner cs best bf bs = Done res.
  Proof.
    induction cs as [|c cs IH]; intros Hd best bf bs; simpl; [eauto|].
    destruct (Hd c (or_introl eq_refl)) as [[[st ft] tm] ->].
    destruct (negb (is_inf ft) && _); apply IH; intros c' Hc'; apply Hd; right; exact Hc'.
  Qed.

  Lemma contractor_search_best cs s st ft c tm :
    run_contractor_search runner cs s = Done (st, ft, c, tm) ->
    In c (filter_contractors s cs) /\ runner c = Done (st, ft, tm) /\ is_inf ft = false /\
    (forall c', In c' (filter_contractors s cs) -> at_least_as_good c ft c').
  Proof.
    unfold run_contractor_search. destruct (search_loop _ _ _ _ _) as [[r|]| |] eqn:E; try discriminate.
    assert (H := search_loop_spec _ _ _ _ _ E (conj eq_refl eq_refl)). simpl in H.
    destruct H as ([Hn|Hin] & ft' & (st' & tm' & A1) & A2 & A3 & _); [discriminate|].
    rewrite A1. intros [= <- <- <- <-]. auto.
  Qed.
  Lemma contractor_search_none cs s : (forall c, runner c <> NoContractor) ->
    run_contractor_search runner cs s = NoContractor ->
    forall c, In c (filter_contractors s cs) -> exists st ft tm, runner c = Done (st, ft, tm) /\ is_inf ft = true.
  Proof.
    intros Hno. unfold run_contractor_search. destruct (search_loop _ _ _ _ _) as [[r|]| |] eqn:E; try discriminate.
    - destruct (runner r) as [[[st ft] tm]| |] eqn:Er; try discriminate. exfalso. apply (Hno r Er).
    - intros _ c Hc. destruct (search_loop_spec _ _ _ _ _ E (conj eq_refl eq_refl)) as [_ H].
      destruct (H c Hc) as (ft & (st & tm & A) & B). eauto.
    - exfalso. eapply search_loop_no_contractor; eauto.
  Qed.
  Lemma contractor_search_exists cs s : (forall c, In c (filter_contractors s cs) -> exists r, runner c = Done r) ->
    (exists c st ft tm, In c (filter_contractors s cs) /\ runner c = Done (st, ft, tm) /\ is_inf ft = false) ->
    exists r, run_contractor_search runner cs s = Done r.
  Proof.
    intros Hd (c & st & ft & tm & Hc & Hr & Hf). unfold run_contractor_search.
    destruct (search_loop_total _ Hd None time_inf None) as [res E]. rewrite E.
    assert (H := search_loop_spec _ _ _ _ _ E (conj eq_refl eq_refl)).
    destruct res as [b|]; simpl in H.
    - destruct H as ([Hn|Hin] & ft' & (st' & tm' & A1) & _); [discriminate|]. rewrite A1. eauto.
    - destruct H as [_ H]. destruct (H c Hc) as (ft' & (st' & tm' & A1) & A2). congruence.
  Qed.
  Lemma contractor_search_not_crash cs s : (forall c, In c (filter_contractors s cs) -> exists r, runner c = Done r) ->
    run_contractor_search runner cs s <> Crash.
  Proof.
    intros Hd. unfold run_contractor_search.
    destruct (search_loop_total _ Hd None time_inf None) as [res E]. rewrite E.
    assert (H := search_loop_spec _ _ _ _ _ E (conj eq_refl eq_refl)).
    destruct res as [b|]; simpl in H; [|discriminate].
    destruct H as ([Hn|Hin] & ft' & (st' & tm' & A1) & _); [discriminate|]. rewrite A1. discriminate.
  Qed.
End Search.

(** ** Borders *)

Lemma pool_get_capacity p a : pool_get p a = capacity p a.
Proof. induction p as [|[[c k] n] r IH]; simpl; [reflexivity|]. unfold agent_eqb. simpl. rewrite IH. reflexivity. Qed.

Lemma borders_spec p c : forall reqs bs, get_worker_borders p c reqs = Some bs ->
  Forall2 (fun r b => bd_kind b = r_kind r /\ bd_min b = r_min r /\ capacity p (c, r_kind r) = Some (bd_count b)
             /\ bd_max b = Z.min (r_max r) (bd_count b) /\ r_min r <= bd_count b) reqs bs.
Proof.
  induction reqs as [|r reqs IH]; simpl; intros bs H.
  - injection H as <-. constructor.
  - rewrite pool_get_capacity in H. destruct (capacity p (c, r_kind r)) as [n|] eqn:Ec; [|discriminate].
    destruct (Z.ltb_spec n (r_min r)); [discriminate|].
    destruct (get_worker_borders p c reqs) as [bs'|]; [|discriminate]. injection H as <-.
    constructor; [|apply IH; reflexivity]. simpl. auto.
Qed.
Lemma borders_none p c : forall reqs, get_worker_borders p c reqs = None <->
  exists r, In r reqs /\ match capacity p (c, r_kind r) with None => True | Some n => n < r_min r end.
Proof.
  induction reqs as [|r reqs IH]; simpl.
  - split; [discriminate|]. intros (r & [] & _).
  - rewrite pool_get_capacity. destruct (capacity p (c, r_kind r)) as [n|] eqn:Ec.
    + destruct (Z.ltb_spec n (r_min r)) as [Hl|Hl].
      * split; [|reflexivity]. intros _. exists r. rewrite Ec. auto.
      * destruct (get_worker_borders p c reqs) as [bs|].
        -- split; [discriminate|]. intros (r' & [<-|Hin] & Hr'); [rewrite Ec in Hr'; lia|].
           assert (Some bs = None) by (apply IH; eauto). discriminate.
        -- split; [|reflexivity]. intros _. destruct (proj1 IH eq_refl) as (r' & Hin & Hr'). eauto.
    + split; [|reflexivity]. intros _. exists r. rewrite Ec. auto.
Qed.
