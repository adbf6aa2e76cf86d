From Coq Require Import ZArith QArith List Bool Lia Arith ZifyBool ZifyNat Permutation Lqa.
From Verif Require Import TimeModel TimeProofs MomentumModel JITModel MomentumSpec MomentumHistory MomentumProofs MomentumTeamProofs
  GraphModel ScheduleModel ScheduleSpec TeamProofs ScheduleProofs ScheduleInv SchedulePoolProofs ScheduleSafe JitScheduleInv
  TopoModel HeadModel PriorityModel SgsModel SgsSpec SgsSerial LftModel LftSpec.
Import ListNotations.
Local Open Scope Z_scope.

(** ** Contractors and amounts *)
Lemma named_amount sp k : NoDup (map fst (sp_workers sp)) -> forall m, named sp k m <-> (spec_amount sp k = m /\ m <> -1).
Proof.
  intros Hnd m. unfold named, spec_amount. split.
  - intros [H1 H2]. rewrite (assoc_get_nodup_in _ _ _ Hnd H1). auto.
  - intros [H1 H2]. destruct (assoc_get (sp_workers sp) k) as [x|] eqn:E; [|lia]. subst x. split; [apply assoc_get_in; exact E|exact H2].
Qed.
Lemma in_spec_named sp r : NoDup (map fst (sp_workers sp)) -> in_spec sp r = true -> named sp (r_kind r) (spec_amount sp (r_kind r)).
Proof. intros Hnd H. apply named_amount; [exact Hnd|]. unfold in_spec in H. lia. Qed.
Lemma in_spec_not sp r : NoDup (map fst (sp_workers sp)) -> in_spec sp r = false -> forall m, ~ named sp (r_kind r) m.
Proof. intros Hnd H m Hm. apply named_amount in Hm; [|exact Hnd]. unfold in_spec in H. lia. Qed.
Lemma contractor_enabled_iff sp c : contractor_enabled sp c = true <-> (sp_contractors sp = [] \/ In c (sp_contractors sp)).
Proof.
  unfold contractor_enabled. destruct (sp_contractors sp) as [|x l]; [intuition congruence|].
  rewrite existsb_exists. split.
  - intros (y & Hy & E). apply Nat.eqb_eq in E. subst. auto.
  - intros [H|H]; [discriminate|]. exists c. split; [exact H|apply Nat.eqb_refl].
Qed.

Section Choice.
  Variables (sp : work_spec) (reqs : list req) (cs : list contractor).
  Hypothesis Hnd : NoDup (map fst (sp_workers sp)).
  Hypothesis Hreqs : reqs_ok reqs.
  Hypothesis Hcs : contractors_ok cs.

  Lemma reqs_min r : In r reqs -> 0 <= r_min r <= r_max r.
  Proof. intros H. destruct Hreqs as [_ F]. rewrite Forall_forall in F. apply F. exact H. Qed.

  Lemma accepts_iff c : In c cs -> (accepts sp reqs c = true <-> can_do sp reqs c).
  Proof.
    intros Hc. destruct (proj2 Hcs c Hc) as [Hk Hn]. unfold accepts, can_do. rewrite !andb_true_iff, contractor_enabled_iff, !forallb_forall.
    split.
    - intros [[H1 H2] H3]. split; [exact H3|]. intros r Hr. specialize (H1 r Hr). assert (Hm := reqs_min r Hr).
      unfold contractor_amount in *. destruct (assoc_get (ct_workers c) (r_kind r)) as [n|] eqn:E; rewrite ?E in H1; [|lia].
      exists n. split; [apply assoc_get_in; exact E|]. split; [lia|]. intros m Hm'.
      assert (Hs := proj1 (named_amount _ _ Hnd m) Hm'). specialize (H2 r).
      rewrite E in H2. enough (spec_amount sp (r_kind r) <=? n = true) by lia. apply H2. apply filter_In. split; [exact Hr|]. unfold in_spec. lia.
    - intros [H3 H]. split; [split|exact H3].
      + intros r Hr. destruct (H r Hr) as (n & H1 & H2 & _). unfold contractor_amount. rewrite (assoc_get_nodup_in _ _ _ Hk H1). lia.
      + intros r Hr. apply filter_In in Hr as [Hr Hi]. destruct (H r Hr) as (n & H1 & H2 & H4). unfold contractor_amount.
        rewrite (assoc_get_nodup_in _ _ _ Hk H1). specialize (H4 _ (in_spec_named _ _ Hnd Hi)). lia.
  Qed.

  Lemma wrong_amount : (existsb (fun r => spec_amount sp (r_kind r) <? r_min r) (filter (in_spec sp) reqs) = true \/
     existsb (fun r => r_max r <? spec_amount sp (r_kind r)) (filter (in_spec sp) reqs) = true) <-> ~ names_in_range sp reqs.
  Proof.
    rewrite !existsb_exists. split.
    - intros [(r & Hr & H)|(r & Hr & H)] Hin; apply filter_In in Hr as [Hr Hi];
        specialize (Hin r _ Hr (in_spec_named _ _ Hnd Hi)); lia.
    - intros H.
      destruct (existsb (fun r => spec_amount sp (r_kind r) <? r_min r) (filter (in_spec sp) reqs)) eqn:E1; [left; apply existsb_exists; exact E1|].
      destruct (existsb (fun r => r_max r <? spec_amount sp (r_kind r)) (filter (in_spec sp) reqs)) eqn:E2; [right; apply existsb_exists; exact E2|].
      exfalso. apply H. intros r m Hr Hm. apply named_amount in Hm as [Hm1 Hm2]; [|exact Hnd].
      assert (Hf : In r (filter (in_spec sp) reqs)) by (apply filter_In; split; [exact Hr|unfold in_spec; lia]).
      rewrite <- Hm1. split; apply Z.nlt_ge; intros Hlt.
      + apply not_true_iff_false in E1. apply E1. apply existsb_exists. exists r. split; [exact Hf|lia].
      + apply not_true_iff_false in E2. apply E2. apply existsb_exists. exists r. split; [exact Hf|lia].
  Qed.

  Lemma contractors_for_spec : match contractors_for sp reqs cs with
    | LftDone l => names_in_range sp reqs /\ l = map (fun c => (c, worker_amounts sp reqs c)) (filter (accepts sp reqs) cs) /\ l <> []
    | WrongSpecAmount => ~ names_in_range sp reqs
    | NoSufficient => names_in_range sp reqs /\ cs <> [] /\ forall c, In c cs -> ~ can_do sp reqs c
    | LftError => names_in_range sp reqs /\ cs = []
    | LftCircular => False
    end.
  Proof.
    unfold contractors_for.
    destruct (existsb (fun r => spec_amount sp (r_kind r) <? r_min r) _) eqn:E1; [apply wrong_amount; auto|].
    destruct (existsb (fun r => r_max r <? spec_amount sp (r_kind r)) _) eqn:E2; [apply wrong_amount; auto|].
    assert (Hin : names_in_range sp reqs).
    { intros r m Hr Hm. apply named_amount in Hm as [Hm1 Hm2]; [|exact Hnd].
      assert (Hf : In r (filter (in_spec sp) reqs)) by (apply filter_In; split; [exact Hr|unfold in_spec; lia]).
      rewrite <- Hm1. split; apply Z.nlt_ge; intros Hlt.
      + apply not_true_iff_false in E1. apply E1. apply existsb_exists. exists r. split; [exact Hf|lia].
      + apply not_true_iff_false in E2. apply E2. apply existsb_exists. exists r. split; [exact Hf|lia]. }
    destruct cs as [|c0 cs0] eqn:Ecs; [auto|]. rewrite <- Ecs in *.
    destruct (filter (accepts sp reqs) cs) as [|c l] eqn:Ef.
    - split; [exact Hin|]. split; [congruence|]. intros c Hc Hd. apply (accepts_iff c Hc) in Hd.
      assert (Hx : In c (filter (accepts sp reqs) cs)) by (apply filter_In; auto). rewrite Ef in Hx. destruct Hx.
    - split; [exact Hin|]. split; [reflexivity|]. discriminate.
  Qed.

  Lemma lft_team_spec c : In c cs -> can_do sp reqs c -> names_in_range sp reqs ->
    exists team, lft_team c reqs (worker_amounts sp reqs c) = Some team /\ largest_team sp reqs c team /\
      Forall2 (fun r w => 0 <= w_count w /\ r_min r <= w_count w <= r_max r /\ exists n, In (r_kind r, n) (ct_workers c) /\ w_count w <= n) reqs team.
  Proof.
    intros Hc [_ Hd] Hin. destruct (proj2 Hcs c Hc) as [Hk Hn]. unfold lft_team, worker_amounts, largest_team.
    assert (Hm := reqs_min). clear Hreqs. induction reqs as [|r l IH]; simpl; [exists []; repeat split; constructor|].
    destruct (Hd r (or_introl eq_refl)) as (n & H1 & H2 & H3). rewrite (assoc_get_nodup_in _ _ _ Hk H1).
    destruct IH as (team & E & F1 & F2).
    { intros r' Hr'. apply Hd. right. exact Hr'. }
    { intros r' m Hr'. apply Hin. right. exact Hr'. }
    { intros r' Hr'. apply Hm. right. exact Hr'. }
    rewrite E. eexists. split; [reflexivity|]. specialize (Hm r (or_introl eq_refl)).
    assert (Ha : contractor_amount c (r_kind r) = n) by (unfold contractor_amount; rewrite (assoc_get_nodup_in _ _ _ Hk H1); reflexivity).
    split; (constructor; [|assumption]); simpl; rewrite Ha; destruct (in_spec sp r) eqn:Ei.
    - repeat (split; [reflexivity|]). left. apply in_spec_named; assumption.
    - repeat (split; [reflexivity|]). right. split; [apply in_spec_not; assumption|]. eauto.
    - assert (Hnm := in_spec_named _ _ Hnd Ei). specialize (H3 _ Hnm). specialize (Hin r _ (or_introl eq_refl) Hnm).
      split; [lia|]. split; [lia|]. exists n. split; [exact H1|lia].
    - split; [lia|]. split; [lia|]. exists n. split; [exact H1|lia].
  Qed.
End Choice.

(** ** The assignment *)
Lemma argmax_from_lt : forall l i best v, (best < i)%nat -> (argmax_from l i best v < i + length l)%nat.
Proof.
  induction l as [|x l IH]; intros i best v H; simpl; [lia|].
  destruct (Qle_bool x v); [specialize (IH (S i) best v)|specialize (IH (S i) i x)]; lia.
Qed.
Lemma argmax_lt l : l <> [] -> (argmax l < length l)%nat.
Proof. destruct l as [|x l]; [congruence|]. intros _. simpl. assert (H := argmax_from_lt l 1 0 x). lia. Qed.
Lemma argmax_from_max : forall l i best v p, (best < i)%nat -> (length p = i)%nat -> nth_error p best = Some v ->
  (forall j y, nth_error p j = Some y -> Qle y v) -> (forall j y, (j < best)%nat -> nth_error p j = Some y -> Qlt y v) ->
  exists v', nth_error (p ++ l) (argmax_from l i best v) = Some v' /\
    (forall j y, nth_error (p ++ l) j = Some y -> Qle y v') /\
    (forall j y, (j < argmax_from l i best v)%nat -> nth_error (p ++ l) j = Some y -> Qlt y v').
Proof.
  induction l as [|x l IH]; intros i best v p Hb Hp Hv Hmax Hfst; simpl.
  - exists v. rewrite app_nil_r. auto.
  - replace (p ++ x :: l) with ((p ++ [x]) ++ l) by (rewrite <- app_assoc; reflexivity).
    assert (Hsplit : forall j y, nth_error (p ++ [x]) j = Some y -> nth_error p j = Some y \/ (j = i /\ y = x)).
    { intros j y H. destruct (Nat.lt_ge_cases j i) as [Hj|Hj]; [rewrite nth_error_app1 in H by lia; auto|].
      rewrite nth_error_app2 in H by lia. destruct (j - length p)%nat eqn:E; [|destruct n; discriminate].
      simpl in H. injection H as <-. right. split; [lia|reflexivity]. }
    destruct (Qle_bool x v) eqn:E.
    + apply Qle_bool_iff in E. apply IH; [lia|rewrite app_length; simpl; lia|rewrite nth_error_app1 by lia; exact Hv| |].
      * intros j y H. apply Hsplit in H as [H|[-> ->]]; [eauto|exact E].
      * intros j y Hj H. rewrite nth_error_app1 in H by lia. eauto.
    + assert (Hlt : Qlt v x). { apply Qnot_le_lt. intros H. apply Qle_bool_iff in H. congruence. }
      apply IH; [lia|rewrite app_length; simpl; lia|rewrite nth_error_app2 by lia; replace (i - length p)%nat with O by lia; reflexivity| |].
      * intros j y H. apply Hsplit in H as [H|[-> ->]]; [|apply Qle_refl]. apply Hmax in H. lra.
      * intros j y Hj H. rewrite nth_error_app1 in H by lia. apply Hmax in H. lra.
Qed.
Lemma argmax_max l : l <> [] -> exists v, nth_error l (argmax l) = Some v /\ (forall j y, nth_error l j = Some y -> Qle y v) /\
  (forall j y, (j < argmax l)%nat -> nth_error l j = Some y -> Qlt y v).
Proof.
  destruct l as [|x l]; [congruence|]. intros _. apply (argmax_from_max l 1 0 x [x]); [lia|reflexivity|reflexivity| |].
  - intros [|j] y H; [injection H as <-; apply Qle_refl|destruct j; discriminate].
  - intros j y Hj. lia.
Qed.

Lemma increment_length : forall l i, length (increment i l) = length l.
Proof. induction l as [|x l IH]; intros [|i]; simpl; auto. Qed.
Lemma masked_length {A} (f : contractor -> bool) : forall (cs : list contractor) (l : list A), length l = length cs ->
  length (masked (map f cs) l) = length (filter f cs).
Proof.
  unfold masked. induction cs as [|c cs IH]; intros [|x l] H; simpl in *; try lia.
  destruct (f c); simpl; rewrite ?map_length in *; rewrite <- (IH l) by lia; rewrite ?map_length; reflexivity.
Qed.
Section Assignment.
  Variables (g : graph) (est : nat -> list worker -> Z) (anonymous : nat) (cs : list contractor) (spec : nat -> work_spec)
            (choose : nat -> list Q -> nat).
  Hypothesis Hest : estimator_ok est.
  Hypothesis Hcs : contractors_ok cs.
  Hypothesis Hreqs : forall n, reqs_ok (reqs_of g n).
  Hypothesis Hspec : forall n, NoDup (map fst (sp_workers (spec n))).
  Hypothesis Hchoose : forall k l, l <> [] -> (choose k l < length l)%nat.

  Definition assigned_ok (a : assignment) : Prop :=
    let n := a_node a in
    names_in_range (spec n) (reqs_of g n) /\
    exists ct, In ct cs /\ a_contractor a = ct_id ct /\ can_do (spec n) (reqs_of g n) ct /\
      largest_team (spec n) (reqs_of g n) ct (a_team a) /\
      chain_time g est n (anonymous_team anonymous (a_team a)) (a_duration a - 1).
  Let head n := inseparable_parent g n = None /\ exists c, chain_of g n = Some c.

  Lemma chain_duration_spec n amounts : head n -> exists d, chain_duration g est anonymous n amounts = Some d /\
    chain_time g est n (map (fun ra => Wk anonymous (r_kind (fst ra)) (snd ra)) (combine (reqs_of g n) amounts)) (d - 1).
  Proof.
    intros [Hp [c Hc]]. unfold chain_duration, cascade_time. rewrite Hp, Hc. eexists. split; [reflexivity|].
    exists c. split; [exact Hc|]. lia.
  Qed.
  Lemma team_anonymous c rqs : forall amounts team, lft_team c rqs amounts = Some team ->
    map (fun ra => Wk anonymous (r_kind (fst ra)) (snd ra)) (combine rqs amounts) = anonymous_team anonymous team.
  Proof.
    unfold lft_team. induction rqs as [|r l IH]; intros [|a amounts] team; simpl; try (intros [= <-]; reflexivity).
    destruct (assoc_get _ _); [|discriminate]. destruct (map_opt _ (combine l amounts)) eqn:E; [|discriminate].
    intros [= <-]. simpl. f_equal. apply IH. exact E.
  Qed.

  Lemma assign_work_spec k n counts : length counts = length cs -> head n ->
    match assign_work g est anonymous cs spec choose k n counts with
    | LftDone (a, counts') => a_node a = n /\ assigned_ok a /\ length counts' = length cs
    | WrongSpecAmount => ~ names_in_range (spec n) (reqs_of g n)
    | NoSufficient => names_in_range (spec n) (reqs_of g n) /\ cs <> [] /\ forall c, In c cs -> ~ can_do (spec n) (reqs_of g n) c
    | LftError => cs = []
    | LftCircular => False
    end.
  Proof.
    intros Hl Hh. unfold assign_work. assert (HC := contractors_for_spec (spec n) (reqs_of g n) cs (Hspec n) (Hreqs n) Hcs).
    destruct (contractors_for _ _ _) as [accepted| | | |]; try tauto. destruct HC as (Hin & -> & Hne).
    set (acc := filter (accepts (spec n) (reqs_of g n)) cs) in *.
    set (pairs := map (fun c => (c, worker_amounts (spec n) (reqs_of g n) c)) acc) in *.
    destruct (map_opt_total (fun ca : contractor * list Z => chain_duration g est anonymous n (snd ca)) pairs) as [durations Ed].
    { intros ca _. destruct (chain_duration_spec n (snd ca) Hh) as (d & Hd & _). eauto. }
    rewrite Ed. apply map_opt_forall2 in Ed. assert (Hld := Forall2_len _ _ _ Ed).
    set (sc := scores _ _ _).
    assert (Hsc : length sc = length acc).
    { unfold sc, scores. rewrite map_length, combine_length, (masked_length _ _ _ Hl). fold acc.
      rewrite <- Hld. unfold pairs. rewrite map_length. lia. }
    assert (Hacc : acc <> []) by (intros E; apply Hne; unfold pairs; rewrite E; reflexivity).
    assert (Hi : (choose k sc < length sc)%nat) by (apply Hchoose; intros E; rewrite E in Hsc; destruct acc; [congruence|discriminate]).
    rewrite Hsc in Hi. set (i := choose k sc) in *.
    destruct (nth_error acc i) as [c|] eqn:Ec; [|apply nth_error_None in Ec; lia].
    assert (Ep : nth_error pairs i = Some (c, worker_amounts (spec n) (reqs_of g n) c)) by exact (map_nth_error (fun c => (c, worker_amounts (spec n) (reqs_of g n) c)) i acc Ec).
    rewrite Ep.
    assert (Hdi : exists d, nth_error durations i = Some d /\ chain_duration g est anonymous n (worker_amounts (spec n) (reqs_of g n) c) = Some d).
    { revert Ep. generalize i. clear -Ed. induction Ed as [|x y l l' H Ed IH]; intros [|i] E; try discriminate; simpl in *; [injection E as ->; eauto|eauto]. }
    destruct Hdi as (d & -> & Hd). apply nth_error_In in Ec. apply filter_In in Ec as [Hc1 Hc2].
    assert (Hcan := proj1 (accepts_iff (spec n) (reqs_of g n) cs (Hspec n) (Hreqs n) Hcs c Hc1) Hc2).
    destruct (lft_team_spec (spec n) (reqs_of g n) cs (Hspec n) (Hreqs n) Hcs c Hc1 Hcan Hin) as (team & Et & F1 & _).
    rewrite Et. split; [reflexivity|]. split; [|rewrite increment_length; exact Hl].
    split; [exact Hin|]. exists c. cbn [a_node a_contractor a_team a_duration]. repeat (split; [assumption || reflexivity|]).
    destruct (chain_duration_spec n (worker_amounts (spec n) (reqs_of g n) c) Hh) as (d' & Hd' & Hc').
    rewrite Hd in Hd'. injection Hd' as <-. rewrite (team_anonymous c _ _ _ Et) in Hc'. exact Hc'.
  Qed.

  Lemma assign_loop_spec : forall nodes k counts, length counts = length cs -> (forall n, In n nodes -> head n) ->
    match assign_loop g est anonymous cs spec choose k nodes counts with
    | LftDone asg => map a_node asg = nodes /\ Forall assigned_ok asg
    | WrongSpecAmount => exists n, In n nodes /\ ~ names_in_range (spec n) (reqs_of g n)
    | NoSufficient => exists n, In n nodes /\ names_in_range (spec n) (reqs_of g n) /\ cs <> [] /\
                        forall c, In c cs -> ~ can_do (spec n) (reqs_of g n) c
    | LftError => cs = [] /\ nodes <> []
    | LftCircular => False
    end.
  Proof.
    induction nodes as [|n nodes IH]; intros k counts Hl Hh; cbn [assign_loop]; [split; [reflexivity|constructor]|].
    assert (Hw := assign_work_spec k n counts Hl (Hh n (or_introl eq_refl))).
    destruct (assign_work _ _ _ _ _ _ _ _ _) as [[a counts']| | | |].
    - destruct Hw as (W1 & W2 & W3). specialize (IH (S k) counts' W3 ltac:(intros; apply Hh; right; assumption)).
      destruct (assign_loop _ _ _ _ _ _ _ _ _) as [asg| | | |].
      + destruct IH as [I1 I2]. split; [simpl; congruence|constructor; assumption].
      + destruct IH as (m & ? & ?). exists m. split; [right; assumption|assumption].
      + destruct IH as (m & ? & ?). exists m. split; [right; assumption|assumption].
      + exact IH.
      + split; [apply IH|discriminate].
    - exists n. split; [left; reflexivity|exact Hw].
    - exists n. split; [left; reflexivity|exact Hw].
    - exact Hw.
    - split; [exact Hw|discriminate].
  Qed.
  Lemma assign_all_spec nodes : (forall n, In n nodes -> head n) ->
    match assign_all g est anonymous cs spec choose nodes with
    | LftDone asg => map a_node asg = nodes /\ Forall assigned_ok asg
    | WrongSpecAmount => exists n, In n nodes /\ ~ names_in_range (spec n) (reqs_of g n)
    | NoSufficient => exists n, In n nodes /\ names_in_range (spec n) (reqs_of g n) /\ cs <> [] /\
                        forall c, In c cs -> ~ can_do (spec n) (reqs_of g n) c
    | LftError => cs = [] /\ nodes <> []
    | LftCircular => False
    end.
  Proof. intros H. apply assign_loop_spec; [rewrite map_length; reflexivity|exact H]. Qed.

  Lemma assigned_to_in asg n : In n (map a_node asg) -> exists a, assigned_to asg n = Some a /\ In a asg /\ a_node a = n.
  Proof.
    intros H. unfold assigned_to. destruct (find _ asg) as [a|] eqn:E.
    - apply find_some in E as [E1 E2]. apply Nat.eqb_eq in E2. eauto.
    - exfalso. apply in_map_iff in H as (a & Ha & Hin). apply (find_none _ _ E) in Hin. rewrite Ha, Nat.eqb_refl in Hin. discriminate.
  Qed.
  Lemma cascade_nonneg chain team : forall t, 0 <= t <= TIME_INF -> 0 <= fold_left (fun t m => tadd t (est m team)) chain t.
  Proof.
    induction chain as [|m chain IH]; intros t Ht; simpl; [lia|]. apply IH. destruct (Hest m team). rewrite tadd_min by lia. inf; lia.
  Qed.
  Lemma duration_pos asg n : Forall assigned_ok asg -> In n (map a_node asg) -> 1 <= duration_of asg n.
  Proof.
    intros Hok H. destruct (assigned_to_in asg n H) as (a & E & Hin & _). unfold duration_of. rewrite E.
    rewrite Forall_forall in Hok. destruct (Hok a Hin) as (_ & ct & _ & _ & _ & _ & chain & _ & Ht).
    assert (Hp := cascade_nonneg chain (anonymous_team anonymous (a_team a)) 0 ltac:(inf; lia)). lia.
  Qed.
End Assignment.
