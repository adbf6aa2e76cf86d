From Coq Require Import ZArith QArith List Bool Lia Arith ZifyBool ZifyNat Permutation.
From Verif Require Import TimeModel TimeProofs MomentumModel JITModel JITHistory JITProofs MomentumSpec MomentumHistory MomentumProofs MomentumTeamProofs
  GraphModel ScheduleModel ScheduleSpec TeamProofs ScheduleProofs ScheduleInv SchedulePoolProofs ScheduleSafe JitScheduleInv JitScheduleSafe
  SgsModel SgsSpec SgsSerial LftModel LftSpec LftProofs.
Import ListNotations.
Local Open Scope Z_scope.

Lemma nodup_fst_unique {A B} (l : list (A * B)) k m n : NoDup (map fst l) -> In (k, m) l -> In (k, n) l -> m = n.
Proof.
  intros Hnd H1 H2. induction l as [|[k' x] l IH]; [destruct H1|]. simpl in *. inversion Hnd as [|? ? Hni Hnd' E]; subst.
  destruct H1 as [H1|H1], H2 as [H2|H2]; try congruence; [| |auto]; exfalso; apply Hni, in_map_iff.
  - injection H1 as -> ->. exists (k, n). auto.
  - injection H2 as -> ->. exists (k, m). auto.
Qed.

(** The contractor and the team of a work, as the assignment gives them. *)
Definition lft_staffed (g : graph) (cs : list contractor) (spec : nat -> work_spec) (n : nat) (team : list worker) (cid : nat) : Prop :=
  names_in_range (spec n) (u_reqs (g_unit g n)) /\
  exists ct, In ct cs /\ cid = ct_id ct /\ can_do (spec n) (u_reqs (g_unit g n)) ct /\ largest_team (spec n) (u_reqs (g_unit g n)) ct team.

(** The work has the team and the contractor that were assigned to the node [n]. *)
Definition as_assigned (asg : list assignment) (n : nat) (w : swork) : Prop :=
  exists a, In a asg /\ a_node a = n /\ sw_team w = a_team a /\ sw_contractor w = a_contractor a.

Section Team.
  Variables (g : graph) (cs : list contractor) (spec : nat -> work_spec).
  Hypothesis Hcs : contractors_ok cs.
  Hypothesis Hreqs : forall n, reqs_ok (reqs_of g n).

  Lemma assigned_staffed est anonymous a : assigned_ok g est anonymous cs spec a -> lft_staffed g cs spec (a_node a) (a_team a) (a_contractor a).
  Proof. intros (H1 & ct & H2 & H3 & H4 & H5 & _). split; [exact H1|]. exists ct. auto. Qed.

  Lemma as_assigned_staffed est anonymous asg n w : Forall (assigned_ok g est anonymous cs spec) asg -> as_assigned asg n w ->
    lft_staffed g cs spec n (sw_team w) (sw_contractor w).
  Proof.
    intros H (a & Ha & <- & -> & ->). eapply assigned_staffed. rewrite Forall_forall in H. apply H. exact Ha.
  Qed.

  Lemma largest_counts sp reqs ct team : In ct cs -> reqs_ok reqs -> names_in_range sp reqs -> can_do sp reqs ct -> largest_team sp reqs ct team ->
    Forall2 (fun r w => w_contractor w = ct_id ct /\ w_kind w = r_kind r /\ r_min r <= w_count w <= r_max r /\
                        exists n, In (r_kind r, n) (ct_workers ct) /\ w_count w <= n) reqs team.
  Proof.
    intros Hct [_ Hr] Hin [_ Hd] HF. destruct (proj2 Hcs ct Hct) as [Hk Hn].
    induction HF as [|r w l team (A & B & C) HF IH]; constructor.
    - inversion Hr; subst. split; [exact A|]. split; [exact B|].
      destruct (Hd r (or_introl eq_refl)) as (n & D1 & D2 & D3).
      destruct C as [C|(C & n' & C1 & C2)].
      + split; [apply Hin; [left; reflexivity|exact C]|]. exists n. split; [exact D1|]. apply D3. exact C.
      + assert (n = n') by (eapply nodup_fst_unique; eauto). subst n'. split; [lia|]. exists n. split; [exact D1|lia].
    - apply IH; [inversion Hr; assumption| |].
      + intros r' m Hr'. apply Hin. right. exact Hr'.
      + intros r' Hr'. apply Hd. right. exact Hr'.
  Qed.

  Lemma staffed_shape n team cid : lft_staffed g cs spec n team cid ->
    Forall2 (fun r k => w_contractor k = cid /\ w_kind k = r_kind r /\ 0 <= w_count k) (reqs_of g n) team.
  Proof.
    intros (H1 & ct & H2 & -> & H4 & H5). assert (HF := largest_counts _ _ _ _ H2 (Hreqs n) H1 H4 H5).
    assert (Hr := proj2 (Hreqs n)). change (u_reqs (g_unit g n)) with (reqs_of g n) in HF.
    clear H5 H4 H1. revert Hr HF. generalize (reqs_of g n). intros l Hr HF.
    induction HF as [|r w l t (A & B & C & _) HF IH]; constructor; inversion Hr; subst; [|auto]. split; [exact A|]. split; [exact B|lia].
  Qed.

  Lemma staffed_weaker n team cid : lft_staffed g cs spec n team cid ->
    forall w, sw_team w = team -> sw_contractor w = cid -> staffed g cs spec n w.
  Proof.
    intros (H1 & ct & H2 & -> & H4 & H5) w Hw1 Hw2. exists ct. split; [exact H2|]. split; [exact Hw2|]. split; [apply H4|].
    rewrite Hw1. assert (HF := largest_counts _ _ _ _ H2 (Hreqs n) H1 H4 H5).
    assert (Hr := proj2 (Hreqs n)). change (u_reqs (g_unit g n)) with (reqs_of g n) in *.
    clear -HF Hr. revert Hr HF. generalize (reqs_of g n). intros l Hr HF. induction HF as [|r k l t (A & B & C & m & D & E) HF IH]; constructor; inversion Hr; subst; [|auto].
    split; [exact A|]. split; [exact B|]. split; [lia|]. exists m. split; [exact D|]. intros _. split; [exact C|exact E].
  Qed.

  Lemma staffed_team_for n team cid : lft_staffed g cs spec n team cid -> exists ct, In ct cs /\ cid = ct_id ct /\ team_for ct (spec n) (reqs_of g n) team.
  Proof.
    intros (H1 & ct & H2 & -> & H4 & H5). exists ct. split; [exact H2|]. split; [reflexivity|].
    assert (HF := largest_counts _ _ _ _ H2 (Hreqs n) H1 H4 H5). assert (Hr := proj2 (Hreqs n)). change (u_reqs (g_unit g n)) with (reqs_of g n) in *.
    unfold team_for. clear -HF Hr. revert Hr HF. generalize (reqs_of g n). intros l Hr HF. induction HF as [|r k l t (A & B & C & m & D & E) HF IH]; constructor; inversion Hr; subst; [|auto].
    split; [exact A|]. split; [exact B|]. split; [lia|]. left. exact C.
  Qed.

  Lemma staffed_capacity n team cid : lft_staffed g cs spec n team cid ->
    forall k m, In (k, m) (combine (map r_kind (reqs_of g n)) (map w_count team)) -> exists cap, capacity (pool_of cs) (cid, k) = Some cap /\ m <= cap.
  Proof.
    intros (H1 & ct & H2 & -> & H4 & H5) k m Hin. assert (HF := largest_counts _ _ _ _ H2 (Hreqs n) H1 H4 H5).
    change (u_reqs (g_unit g n)) with (reqs_of g n) in *. clear H1 H4 H5. revert HF Hin. generalize (reqs_of g n). intros l HF Hin.
    induction HF as [|r w l t (A & B & C & x & D & E) HF IH]; [destruct Hin|]. simpl in Hin. destruct Hin as [[= <- <-]|Hin]; [|auto].
    exists x. split; [|exact E]. apply capacity_pool; auto.
  Qed.
End Team.

(** ** The interval timeline *)
Section Loop.
  Variables (g : graph) (est : nat -> list worker -> Z) (anonymous : nat) (cs : list contractor) (spec : nat -> work_spec) (apt : Z)
            (asg : list assignment).
  Hypothesis Hcs : contractors_ok cs.
  Hypothesis Hest : estimator_ok est.
  Hypothesis Hreqs : forall n, reqs_ok (reqs_of g n).
  Hypothesis Hvol : forall n, 0 <= volume_of g n.
  Hypothesis Hspec : forall n, spec_ok (spec n).
  Hypothesis Hapt : 0 <= apt <= TIME_INF.
  Hypothesis Hasg : Forall (assigned_ok g est anonymous cs spec) asg.
  Let staff := as_assigned asg.
  Let inv chains sd s h := tinv g (pool_of cs) staff spec chains sd s h /\ times_le s.
  Let find_time := fun sd s n team ind => match momentum_find g est sd s n team ind None apt with
                              | Some (st, _, _) => Some st | None => None end.
  Let place := fun sd s n team c sp st => momentum_schedule g est sd s n team c sp (Some st) apt.
  Let step := lft_step spec apt mstate find_time place asg.
  Let loop := lft_loop_build spec apt mstate find_time place asg.

  Lemma assigned_get n a : assigned_to asg n = Some a -> lft_staffed g cs spec n (a_team a) (a_contractor a).
  Proof.
    intros E. unfold assigned_to in E. apply find_some in E as [E1 E2]. apply Nat.eqb_eq in E2. subst n.
    eapply assigned_staffed. rewrite Forall_forall in Hasg. apply Hasg. exact E1.
  Qed.

  Lemma assigned_in n a : assigned_to asg n = Some a -> In a asg /\ a_node a = n.
  Proof. intros E. unfold assigned_to in E. apply find_some in E as [E1 E2]. apply Nat.eqb_eq in E2. auto. Qed.

  Lemma lft_step_inv first last n chains sd s h sd' s' c :
    inv chains sd s h -> (first = true -> sd = []) ->
    Z.of_nat (length chains) < TIME_INF ->
    chain_of g n = Some c -> NoDup (concat (chains ++ [c])) ->
    (forall e, In e (g_edges g) -> In (e_from e) (concat (chains ++ [c])) -> In (e_to e) (concat (chains ++ [c])) ->
       comes_before (concat (chains ++ [c])) (e_from e) (e_to e)) ->
    step first last n sd s = Some (sd', s') ->
    exists h', inv (chains ++ [c]) sd' s' h'.
  Proof.
    intros [HI Hle] Hf Hlen Hc Hnd Htopo H. unfold step, lft_step in H.
    destruct (assigned_to asg n) as [a|] eqn:Ea; [|discriminate]. assert (Hin := assigned_in n a Ea). apply assigned_get in Ea.
    unfold find_time in H. destruct (momentum_find _ _ _ _ _ _ _ _ _) as [[[st ft] times]|] eqn:Ef; [|discriminate].
    unfold place in H. cbv zeta in H.
    assert (HF := staffed_shape g cs spec Hcs Hreqs n _ _ Ea).
    destruct (team_shape _ _ _ (proj1 (Hreqs n)) HF) as [Etm Htok].
    set (t := team_of_contractor _ _) in *. rewrite Etm in H, Ef.
    assert (Hst : parent_bound g sd None apt n <= st <= TIME_INF) by (eapply momentum_find_le; eauto).
    set (st1 := if first then apt else st) in H. set (st2 := if last then tmax st1 0 else st1) in H.
    assert (Hst1 : parent_bound g sd None apt n <= st1 <= TIME_INF).
    { unfold st1. destruct first; [|exact Hst]. rewrite (Hf eq_refl). unfold parent_bound. rewrite min_start_nil, tmax_spec. lia. }
    assert (Hst2 : parent_bound g sd None apt n <= st2 <= TIME_INF).
    { unfold st2. destruct last; [|exact Hst1]. rewrite tmax_spec. destruct (parent_bound_range g sd None apt n Hapt I). lia. }
    assert (HP : exists h', tinv g (pool_of cs) staff spec (chains ++ [c]) sd' s' h').
    2: { destruct HP as [h' HP]. exists h'. split; [exact HP|]. eapply momentum_schedule_le; [exact Hle| |exact Hapt|exact H]. apply Hst2. }
    eapply (place_inv g est (pool_of cs)); [exact Hest|exact Hvol|apply Hspec|exact Hapt|exact HI|exact Hlen|exact Hc|exact Hnd|exact Htopo|exact Htok|exact Hst2| |exact H].
    intros x Hx1 Hx2. exists a. rewrite Hx1, Hx2, <- Etm. split; [apply Hin|]. split; [apply Hin|]. auto.
  Qed.

  Lemma lft_loop_inv : forall nodes first chains rest sd s h sd' s',
    inv chains sd s h -> (first = true -> sd = []) ->
    chains_of g nodes = Some rest ->
    Z.of_nat (length (chains ++ rest)) < TIME_INF ->
    NoDup (concat (chains ++ rest)) ->
    (forall e, In e (g_edges g) -> In (e_from e) (concat (chains ++ rest)) -> In (e_to e) (concat (chains ++ rest)) ->
       comes_before (concat (chains ++ rest)) (e_from e) (e_to e)) ->
    loop first nodes sd s = Some (sd', s') ->
    exists h', inv (chains ++ rest) sd' s' h'.
  Proof.
    induction nodes as [|n nodes IH]; intros first chains rest sd s h sd' s' HI Hf Hc Hlen Hnd Htopo H.
    - simpl in Hc. injection Hc as <-. rewrite app_nil_r. simpl in H. injection H as <- <-. eauto.
    - cbn [chains_of] in Hc. destruct (chain_of g n) as [c|] eqn:Ec; [|discriminate].
      destruct (chains_of g nodes) as [rest'|] eqn:Er; [|discriminate]. injection Hc as <-.
      unfold loop in H. cbn [lft_loop_build] in H. fold loop in H. fold step in H.
      destruct (step _ _ _ _ _) as [[sd1 s1]|] eqn:Es; [|discriminate].
      assert (Eapp : chains ++ c :: rest' = (chains ++ [c]) ++ rest') by (rewrite <- app_assoc; reflexivity).
      rewrite Eapp in *. rewrite concat_app in Hnd, Htopo.
      assert (Hs : exists h1, inv (chains ++ [c]) sd1 s1 h1);
        [eapply lft_step_inv; [exact HI|exact Hf| |exact Ec| | |exact Es]|destruct Hs as [h1 HI1]].
      { rewrite !app_length in Hlen. simpl in Hlen. lia. }
      { eapply nodup_app_l. exact Hnd. }
      { intros e He H1 H2. eapply comes_before_prefix; [exact Hnd| |exact H2].
        apply Htopo; [exact He|apply in_or_app; left; exact H1|apply in_or_app; left; exact H2]. }
      apply (IH false (chains ++ [c]) rest' sd1 s1 h1 sd' s'); auto.
      + discriminate.
      + rewrite concat_app. exact Hnd.
      + rewrite concat_app. exact Htopo.
  Qed.

  Lemma lft_init : inv [] [] (momentum_init (pool_of cs)) [].
  Proof.
    split; [|apply momentum_init_le]. constructor; simpl; try reflexivity; try lia; try (intros; contradiction).
    apply momentum_init_inv. apply pool_of_ok. exact Hcs.
  Qed.

  (** ** No errors *)
  Variables (D Lg : Z).
  Hypothesis HD : 0 <= D.
  Hypothesis HED : estimates_bounded g est cs spec D.
  Hypothesis HL : 0 <= Lg /\ forall e, In e (g_edges g) -> e_lag e <= Lg.
  Hypothesis Hservice : forall n, u_service (g_unit g n) = true -> reqs_of g n = [].
  Hypothesis Hshare : forall n c m, chain_of g n = Some c -> In m c ->
    map r_kind (reqs_of g m) = map r_kind (reqs_of g n).
  Hypothesis Hnotime : forall n, sp_time (spec n) = None.
  Let HDt : 0 <= D /\ True := conj HD I.
  Local Notation below := (mv_below apt).

  Lemma lft_step_safe B first last n sd s h c : minv (pool_of cs) h s -> m_index s < TIME_INF -> below B sd s ->
    (first = true -> sd = [] /\ h = []) -> In n (map a_node asg) ->
    chain_of g n = Some c -> 2 * (B + Lg) + Z.of_nat (length c) * D < TIME_INF ->
    exists sd' s', step first last n sd s = Some (sd', s') /\
      below (B + Lg + Z.of_nat (length c) * D) sd' s'.
  Proof.
    intros Hm Hidx HB Hfirst Hn Hc Hinf. unfold step, lft_step.
    destruct (assigned_to_in asg n Hn) as (a & Ea & _). rewrite Ea. apply assigned_get in Ea.
    assert (HF := staffed_shape g cs spec Hcs Hreqs n _ _ Ea).
    destruct (team_shape _ _ _ (proj1 (Hreqs n)) HF) as [Etm Htok].
    set (t := team_of_contractor (a_contractor a) (combine (map r_kind (reqs_of g n)) (map w_count (a_team a)))) in *.
    assert (R6 : mv_team_good g est (pool_of cs) D (a_contractor a) n t).
    { split.
      - intros ch0 Hch0 m Hm0. rewrite <- Etm. destruct (staffed_team_for g cs spec Hcs Hreqs n _ _ Ea) as (ct & Hct & _ & Htf).
        eapply HED; eauto.
      - exists (map w_count (a_team a)). split; [reflexivity|]. split; [rewrite map_length; symmetry; eapply Forall2_len; eauto|].
        split; [exact Htok|]. eapply staffed_capacity; eauto. }
    unfold find_time, place. rewrite Etm.
    assert (HB0 : apt <= B) by exact (proj1 HB). assert (HL0 := proj1 HL).
    destruct (mv_find_ok g est (pool_of cs) apt D Lg Hest Hreqs Hapt HDt HL Hservice Hshare B sd s h (a_contractor a) n t c
      (sp_independent (spec n)) Hm HB R6 Hc Hinf) as (st & ft & times & F1 & F2 & F3 & F4).
    rewrite F1. cbv zeta.
    assert (H1 : parent_bound g sd None apt n <= (if first then apt else st) <= B + Lg /\
        (t = [] \/ team_fits (pool_of cs) h t (if first then apt else st)
           (mv_cfin g est apt sd (to_workers t) (parent_bound g sd None apt n) c - parent_bound g sd None apt n))).
    { destruct first; [|auto]. destruct (Hfirst eq_refl) as [-> ->]. split.
      - unfold parent_bound. rewrite min_start_nil, tmax_spec. lia.
      - right. intros x m Hin. destruct R6 as (_ & counts & Et & _ & _ & Hcap). rewrite Et in Hin.
        apply in_map_iff in Hin as ([k m'] & [= <- ->] & Hin). destruct (Hcap k m Hin) as (cap & C1 & C2).
        exists cap. split; [exact C1|]. intros y _. simpl. lia. }
    destruct H1 as [H1 H2].
    assert (E2 : (if last then tmax (if first then apt else st) 0 else (if first then apt else st)) = (if first then apt else st)).
    { destruct last; [|reflexivity]. rewrite tmax_spec. destruct (parent_bound_range g sd None apt n Hapt I). lia. }
    rewrite E2.
    exact (mv_schedule_ok g est (pool_of cs) apt D Lg Hest Hreqs Hapt HDt HL Hservice Hshare B sd s h (a_contractor a) n t c
      (spec n) _ Hm Hidx HB R6 Hc Hinf (Hnotime n) H1 H2).
  Qed.

  Lemma lft_loop_safe : forall nodes first chains rest sd s h,
    inv chains sd s h -> (first = true -> sd = [] /\ h = []) ->
    below (apt + Z.of_nat (length (concat chains)) * (D + Lg)) sd s ->
    (forall n, In n nodes -> In n (map a_node asg)) ->
    chains_of g nodes = Some rest ->
    Z.of_nat (length (chains ++ rest)) < TIME_INF ->
    2 * (apt + Z.of_nat (length (concat (chains ++ rest))) * (D + Lg)) < TIME_INF ->
    NoDup (concat (chains ++ rest)) ->
    (forall e, In e (g_edges g) -> In (e_from e) (concat (chains ++ rest)) -> In (e_to e) (concat (chains ++ rest)) ->
       comes_before (concat (chains ++ rest)) (e_from e) (e_to e)) ->
    exists r, loop first nodes sd s = Some r.
  Proof.
    induction nodes as [|n nodes IH]; intros first chains rest sd s h HI Hf HB Ho Hc Hlen Hinf Hnd Htopo.
    { eexists. reflexivity. }
    cbn [chains_of] in Hc. destruct (chain_of g n) as [c|] eqn:Ec; [|discriminate].
    destruct (chains_of g nodes) as [rest'|] eqn:Er; [|discriminate]. injection Hc as <-.
    unfold loop. cbn [lft_loop_build]. fold loop. fold step.
    assert (Eapp : chains ++ c :: rest' = (chains ++ [c]) ++ rest') by (rewrite <- app_assoc; reflexivity).
    rewrite Eapp in *.
    assert (Hcat : length (concat (chains ++ [c])) = (length (concat chains) + length c)%nat).
    { rewrite concat_app, app_length. simpl. rewrite app_nil_r. reflexivity. }
    assert (HL0 := proj1 HL).
    assert (Hle : Z.of_nat (length (concat (chains ++ [c]))) <= Z.of_nat (length (concat ((chains ++ [c]) ++ rest')))).
    { rewrite (concat_app (chains ++ [c])), app_length. lia. }
    assert (Hlc : (1 <= length c)%nat) by (destruct (chain_head _ _ _ Ec) as [r ->]; simpl; lia).
    destruct (lft_step_safe (apt + Z.of_nat (length (concat chains)) * (D + Lg)) first (match nodes with [] => true | _ => false end) n sd s h c)
      as (sd1 & s1 & S1 & S2); auto.
    { apply (i_minv _ _ _ _ _ _ _ _ (proj1 HI)). }
    { assert (Hx := i_idx _ _ _ _ _ _ _ _ (proj1 HI)). rewrite !app_length in Hlen. simpl in Hlen. lia. }
    { apply Ho. left. reflexivity. }
    { rewrite Hcat in Hle. nia. }
    rewrite S1.
    assert (HI1 : exists h1, inv (chains ++ [c]) sd1 s1 h1).
    { eapply lft_step_inv; [exact HI| | |exact Ec| | |exact S1].
      - intros E; apply Hf in E; tauto.
      - rewrite !app_length in Hlen. simpl in Hlen. lia.
      - rewrite concat_app in Hnd. eapply nodup_app_l. exact Hnd.
      - intros e He H1 H2. rewrite concat_app in Hnd, Htopo. eapply comes_before_prefix; [exact Hnd| |exact H2].
        apply Htopo; [exact He|apply in_or_app; left; exact H1|apply in_or_app; left; exact H2]. }
    destruct HI1 as [h1 HI1].
    eapply (IH false (chains ++ [c]) rest' sd1 s1 h1); eauto.
    - discriminate.
    - destruct S2 as (A1 & A2 & A3). split; [rewrite Hcat; nia|]. split.
      + intros m x Hx. apply A2 in Hx. rewrite Hcat. nia.
      + intros x Hx. apply A3 in Hx. rewrite Hcat. nia.
    - intros m Hm0. apply Ho. right. exact Hm0.
  Qed.
End Loop.

(** ** The release-time timeline *)
Lemma team_within_counts p cid (kinds : list nat) (counts : list Z) :
  team_ok (team_of_contractor cid (combine kinds counts)) ->
  (forall k m, In (k, m) (combine kinds counts) -> exists cap, capacity p (cid, k) = Some cap /\ m <= cap) ->
  team_within p (team_of_contractor cid (combine kinds counts)).
Proof.
  intros [H1 H2] Hc. split; [exact H1|]. intros a n Hin. assert (Hn := H2 _ _ Hin).
  apply in_map_iff in Hin as ([k m] & [= <- ->] & Hin). destruct (Hc k n Hin) as (cap & C1 & C2). exists cap. split; [exact C1|lia].
Qed.

Section JLoop.
  Variables (g : graph) (est : nat -> list worker -> Z) (anonymous : nat) (cs : list contractor) (spec : nat -> work_spec) (apt : Z)
            (asg : list assignment).
  Hypothesis Hcs : contractors_ok cs.
  Hypothesis Hest : estimator_ok est.
  Hypothesis Hreqs : forall n, reqs_ok (reqs_of g n).
  Hypothesis Hvol : forall n, 0 <= volume_of g n.
  Hypothesis Hspec : forall n, spec_ok (spec n).
  Hypothesis Hapt : 0 <= apt <= TIME_INF.
  Hypothesis Hasg : Forall (assigned_ok g est anonymous cs spec) asg.
  Let staff := as_assigned asg.
  Let p := pool_of cs.
  Let inv := jtinv g p staff.
  Let find_time := fun sd s n team ind => match jit_find g est sd s n team ind apt with Some (st, _) => Some st | None => None end.
  Let place := fun sd s n team c sp st => jit_schedule g est sd s n team c sp (Some st) apt.
  Let step := lft_step spec apt jtimeline find_time place asg.
  Let loop := lft_loop_build spec apt jtimeline find_time place asg.

  Lemma assigned_team n a : assigned_to asg n = Some a ->
    lft_staffed g cs spec n (a_team a) (a_contractor a) /\ exists t, a_team a = to_workers t /\ team_ok t /\ team_within p t.
  Proof.
    intros E. assert (Ea := assigned_get g est anonymous cs spec asg Hasg n a E). split; [exact Ea|].
    assert (HF := staffed_shape g cs spec Hcs Hreqs n _ _ Ea).
    destruct (team_shape _ _ _ (proj1 (Hreqs n)) HF) as [Etm Htok]. eexists. split; [exact Etm|]. split; [exact Htok|].
    apply team_within_counts; [exact Htok|]. eapply staffed_capacity; eauto.
  Qed.

  Lemma lft_jstep_inv first last n chains sd s h sd' s' c :
    inv chains sd s h -> (first = true -> sd = [] /\ s = jit_init p) -> (first = false -> sd <> []) ->
    chain_of g n = Some c -> NoDup (concat (chains ++ [c])) ->
    step first last n sd s = Some (sd', s') ->
    sd' <> [] /\ exists h', inv (chains ++ [c]) sd' s' h'.
  Proof.
    intros HI Hfirst Hnf Hch Hnd H. unfold step, lft_step in H.
    destruct (assigned_to asg n) as [a|] eqn:Ea; [|discriminate]. assert (Hin := assigned_in asg n a Ea). apply assigned_team in Ea as (Ea & t & Etm & Htok & Htw).
    unfold find_time in H. destruct (jit_find _ _ _ _ _ _ _ _) as [[st ft]|] eqn:Ef; [|discriminate].
    unfold place in H. cbv zeta in H. rewrite Etm in H, Ef.
    set (st1 := if first then apt else st) in H. set (st2 := if last then tmax st1 0 else st1) in H.
    assert (I1 := j_inv _ _ _ _ _ _ _ HI). assert (I3 := j_le _ _ _ _ _ _ _ HI).
    assert (Hst1 : 0 <= st1 <= TIME_INF /\ late_enough (sp_independent (spec n)) t s st1).
    { unfold st1. destruct first.
      - destruct (Hfirst eq_refl) as [_ ->]. split; [exact Hapt|]. apply late_init; [lia|exact Htw].
      - unfold jit_find in Ef. destruct sd as [|x sd0]; [exfalso; apply Hnf; reflexivity|].
        rewrite Hch in Ef.
        destruct (find_agents_spec p s (sp_independent (spec n)) t I1 Htw 0) as (r & R1 & R2 & R3 & R4 & _).
        rewrite R1 in Ef. injection Ef as <- _.
        split; [split; [exact R2|]|split; assumption].
        eapply find_agents_le; [exact I3| |exact R1]. inf; lia. }
    assert (Hst2 : 0 <= st2 <= TIME_INF /\ late_enough (sp_independent (spec n)) t s st2).
    { unfold st2. destruct last; [|exact Hst1]. destruct Hst1 as [H1 H2]. rewrite tmax_spec. split; [lia|].
      eapply late_mono; [exact I1|exact Htw| |exact H2]. lia. }
    clearbody st2. clear st1 Hst1. destruct Hst2 as [Hst2 Hlate].
    eapply (jplace_inv g est p apt Hest Hvol); [apply Hspec|exact HI|exact Hch|exact Hnd|exact Htok|exact Htw|exact Hst2|exact Hlate| |exact H].
    intros w B3 B4. exists a. rewrite B3, B4, <- Etm. split; [apply Hin|]. split; [apply Hin|]. auto.
  Qed.

  Lemma lft_jloop_inv : forall nodes first chains rest sd s h sd' s',
    inv chains sd s h ->
    (first = true -> sd = [] /\ s = jit_init p) -> (first = false -> sd <> []) ->
    chains_of g nodes = Some rest -> NoDup (concat (chains ++ rest)) ->
    loop first nodes sd s = Some (sd', s') ->
    exists h', inv (chains ++ rest) sd' s' h'.
  Proof.
    induction nodes as [|n nodes IH]; intros first chains rest sd s h sd' s' HI Hf Hnf Hch Hnd H.
    - simpl in Hch. injection Hch as <-. rewrite app_nil_r. simpl in H. injection H as <- <-. eauto.
    - cbn [chains_of] in Hch. destruct (chain_of g n) as [c|] eqn:Ec; [|discriminate].
      destruct (chains_of g nodes) as [rest'|] eqn:Er; [|discriminate]. injection Hch as <-.
      unfold loop in H. cbn [lft_loop_build] in H. fold loop in H. fold step in H.
      destruct (step _ _ _ _ _) as [[sd1 s1]|] eqn:Es; [|discriminate].
      assert (Eapp : chains ++ c :: rest' = (chains ++ [c]) ++ rest') by (rewrite <- app_assoc; reflexivity).
      rewrite Eapp in *. rewrite concat_app in Hnd.
      destruct (lft_jstep_inv _ _ _ _ _ _ _ _ _ _ HI Hf Hnf Ec (nodup_app_l _ _ Hnd) Es) as [Hne [h1 HI1]].
      apply (IH false (chains ++ [c]) rest' sd1 s1 h1 sd' s'); auto; [discriminate|]. rewrite concat_app. exact Hnd.
  Qed.
  Lemma lft_jinit : inv [] [] (jit_init p) [].
  Proof.
    destruct (jit_init_inv _ (pool_of_ok cs Hcs)) as [I1 I2].
    constructor; [reflexivity|exact I1|exact I2|apply jit_init_times; inf; lia| | | | |]; try (intros; contradiction).
    - intros a t. cbn. lia.
    - intros l1 v w l2 E. destruct l1; discriminate.
  Qed.

  Variables (D Lg : Z).
  Hypothesis Hsingle : single_inseparable_parent g.
  Hypothesis Hlags : inseparable_lags_ok g.
  Hypothesis HD : 0 <= D.
  Hypothesis HED : estimates_bounded g est cs spec D.
  Hypothesis HL : 0 <= Lg /\ forall e, In e (g_edges g) -> e_lag e <= Lg.
  Hypothesis Hnotime : forall n, sp_time (spec n) = None.

  Lemma lft_jstep_safe B first last sd s n c : jinv p s -> jbelow B sd s -> apt <= B ->
    inseparable_parent g n = None -> In n (map a_node asg) ->
    chain_of g n = Some c -> 2 * B + Lg + Z.of_nat (length c) * D < TIME_INF ->
    exists sd' s', step first last n sd s = Some (sd', s') /\ jbelow (B + Z.of_nat (length c) * (D + Lg)) sd' s'.
  Proof.
    intros Hi [HB1 HB2] Hb Hp Hn Hc Hinf. unfold step, lft_step.
    destruct (assigned_to_in asg n Hn) as (a & Ea & _). rewrite Ea. apply assigned_team in Ea as (Ea & t & Etm & Htok & Htw).
    destruct HL as [HL0 HL1].
    assert (Hed : forall m, In m c -> est m (to_workers t) <= D).
    { intros m Hm. rewrite <- Etm. destruct (staffed_team_for g cs spec Hcs Hreqs n _ _ Ea) as (ct & Hct & _ & Htf). eapply HED; eauto. }
    unfold find_time, place. rewrite Etm.
    assert (Hf : exists st ft, jit_find g est sd s n (to_workers t) (sp_independent (spec n)) apt = Some (st, ft) /\ 0 <= st <= B).
    { unfold jit_find. destruct sd as [|x sd0] eqn:Es.
      - exists apt, apt. split; [reflexivity|]. lia.
      - rewrite Hc. destruct (find_agents_spec p s (sp_independent (spec n)) t Hi Htw 0) as (r & R1 & R2 & _).
        rewrite R1. do 2 eexists. split; [reflexivity|].
        assert (Hr := find_agents_le B _ _ HB2 _ 0 r ltac:(lia) R1). lia. }
    destruct Hf as (st & ft & -> & Hst). cbv zeta.
    set (st1 := if first then apt else st).
    assert (H1 : 0 <= st1 <= B) by (unfold st1; destruct first; lia).
    assert (E2 : (if last then tmax st1 0 else st1) = st1) by (destruct last; [rewrite tmax_spec; lia|reflexivity]).
    rewrite E2. clearbody st1.
    unfold jit_schedule. rewrite Hc, Hnotime.
    destruct (chain_linked g n c Hsingle Hlags Hp Hc) as (r & -> & Hlk).
    destruct (jit_place_total g est (to_workers t) (a_contractor a) n r st1 None sd Hp Hlk) as (fin & sd' & Epl). rewrite Epl.
    destruct (jit_place_le g est D Lg Hest HL0 HL1 _ _ _ _ _ _ _ B Hed HD H1 ltac:(nia) HB1 Epl) as [P1 P2].
    destruct (jit_update_spec p (sp_independent (spec n)) fin 0 t s Hi Htw) as (s1 & U1 & _). rewrite U1.
    exists sd', s1. split; [reflexivity|]. split; [exact P2|]. eapply jit_update_times; [exact P1| |exact U1].
    intros x q y Ha Hx. specialize (HB2 x q y Ha Hx). nia.
  Qed.

  Lemma lft_jloop_safe : forall nodes first chains rest sd s h,
    inv chains sd s h ->
    (first = true -> sd = [] /\ s = jit_init p) -> (first = false -> sd <> []) ->
    jbelow (apt + Z.of_nat (length (concat chains)) * (D + Lg)) sd s ->
    chains_of g nodes = Some rest -> (forall n, In n nodes -> inseparable_parent g n = None) ->
    (forall n, In n nodes -> In n (map a_node asg)) ->
    2 * (apt + Z.of_nat (length (concat (chains ++ rest))) * (D + Lg)) < TIME_INF ->
    NoDup (concat (chains ++ rest)) ->
    exists r, loop first nodes sd s = Some r.
  Proof.
    induction nodes as [|n nodes IH]; intros first chains rest sd s h HI Hf Hnf HB Hch Hpar Ho Hinf Hnd; [eexists; reflexivity|].
    cbn [chains_of] in Hch. destruct (chain_of g n) as [c|] eqn:Ec; [|discriminate].
    destruct (chains_of g nodes) as [rest'|] eqn:Er; [|discriminate]. injection Hch as <-.
    unfold loop. cbn [lft_loop_build]. fold loop. fold step.
    assert (Eapp : chains ++ c :: rest' = (chains ++ [c]) ++ rest') by (rewrite <- app_assoc; reflexivity).
    rewrite Eapp in *.
    assert (Hlc : (1 <= length c)%nat) by (destruct (chain_head _ _ _ Ec) as [r ->]; simpl; lia).
    assert (Hcat : length (concat (chains ++ [c])) = (length (concat chains) + length c)%nat).
    { rewrite concat_app, app_length. simpl. rewrite app_nil_r. reflexivity. }
    assert (Hle : Z.of_nat (length (concat (chains ++ [c]))) <= Z.of_nat (length (concat ((chains ++ [c]) ++ rest')))).
    { rewrite (concat_app (chains ++ [c])), app_length. lia. }
    assert (HL0 := proj1 HL).
    destruct (lft_jstep_safe (apt + Z.of_nat (length (concat chains)) * (D + Lg)) first (match nodes with [] => true | _ => false end) sd s n c
      (j_inv _ _ _ _ _ _ _ HI) HB ltac:(nia) (Hpar n (or_introl eq_refl)) (Ho n (or_introl eq_refl)) Ec ltac:(rewrite Hcat in Hle; nia)) as (sd1 & s1 & Es & Hs).
    rewrite Es. assert (Hnd1 := Hnd). rewrite concat_app in Hnd1.
    destruct (lft_jstep_inv _ _ _ _ _ _ _ _ _ _ HI Hf Hnf Ec (nodup_app_l _ _ Hnd1) Es) as [Hne [h1 HI1]].
    apply (IH false (chains ++ [c]) rest' sd1 s1 h1 HI1); auto.
    - discriminate.
    - rewrite Hcat. replace (apt + Z.of_nat (length (concat chains) + length c) * (D + Lg))
          with (apt + Z.of_nat (length (concat chains)) * (D + Lg) + Z.of_nat (length c) * (D + Lg)) by lia. exact Hs.
    - intros m Hm. apply Hpar. right. exact Hm.
    - intros m Hm. apply Ho. right. exact Hm.
  Qed.
End JLoop.
