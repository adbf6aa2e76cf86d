(** Zones and materials of the works that the list scheduler places with the release-time
    timeline. *)
From Coq Require Import ZArith List Bool Lia Arith Permutation.
From Coq Require Import ZifyBool ZifyNat.
From Verif Require Import TimeModel MomentumModel MomentumSpec MomentumHistory MomentumTeamProofs
  JITModel JITHistory JITProofs GraphModel ScheduleModel ScheduleSpec ContractorProofs ContractorTheorems TeamProofs ScheduleProofs
  SchedulePoolProofs ScheduleInv JitScheduleInv ScheduleSafe ZoneModel ZoneProofs ZoneTheorems SiteModel SiteProofs SiteZoneProofs
  SiteSupplyProofs JitSiteModel JitSiteProofs.
From Verif Require SupplyModel SupplySpec SupplyProofs4.
Import ListNotations.
Local Open Scope Z_scope.

(** ** The execution time of a chain is that which the search assumed *)
Lemma sd_get_app pre sd q : sd_get (pre ++ sd) q = match sd_get pre q with Some w => Some w | None => sd_get sd q end.
Proof. induction pre as [|[m w] pre IH]; simpl; [reflexivity|]. destruct (Nat.eqb m q); [reflexivity|exact IH]. Qed.

Lemma min_start_app_le g pre sd n curr : 0 <= curr ->
  (forall e w, In e (g_edges g) -> e_to e = n -> In (e_from e, w) pre -> sw_finish w <= curr /\ e_lag e <= 0) ->
  min_start_time g (pre ++ sd) n <= Z.max curr (min_start_time g sd n).
Proof.
  intros Hc Hpre. unfold min_start_time at 1.
  destruct (max_default0_in (parent_times (pre ++ sd) (edges_to g n))) as [->|E]; [lia|].
  apply parent_times_in in E as (e & w & He & Hw & ->).
  assert (He' := He). unfold edges_to in He'. apply filter_In in He' as [He' Ht]. apply Nat.eqb_eq in Ht.
  rewrite sd_get_app in Hw. destruct (sd_get pre (e_from e)) as [w'|] eqn:Eg.
  - injection Hw as ->. apply sd_get_in_weak in Eg. destruct (Hpre e w He' Ht Eg) as [A B].
    inf. unfold tadd. destruct (set_time_cases (sw_finish w + e_lag e)) as [[E1 R]|[[R1 R2]|[R1 R2]]]; lia.
  - assert (M := min_start_ge g sd e w He' Hw). rewrite Ht in M. lia.
Qed.
Lemma min_start_app_ge g pre sd n : (forall m w w', In (m, w) pre -> In (m, w') sd -> False) -> 0 <= min_start_time g (pre ++ sd) n ->
  min_start_time g sd n <= min_start_time g (pre ++ sd) n.
Proof.
  intros Hd H0. unfold min_start_time at 1.
  destruct (max_default0_in (parent_times sd (edges_to g n))) as [->|E]; [exact H0|].
  apply parent_times_in in E as (e & w & He & Hw & ->).
  assert (He' := He). unfold edges_to in He'. apply filter_In in He' as [He' Ht]. apply Nat.eqb_eq in Ht.
  rewrite <- Ht. apply min_start_ge; [exact He'|]. rewrite sd_get_app. destruct (sd_get pre (e_from e)) as [w'|] eqn:Eg; [|exact Hw].
  exfalso. apply sd_get_in_weak in Eg. apply sd_get_in_weak in Hw. eauto.
Qed.

Lemma jit_place_fin g est team c st sd0 : estimator_ok est -> 0 <= st -> forall chain pre curr cur0 fin sd',
  0 <= cur0 -> 0 <= curr <= TIME_INF -> curr <= st + cur0 -> cur0 <= curr ->
  (forall m w, In (m, w) pre -> sw_finish w <= curr) ->
  (forall e w, In e (g_edges g) -> (In (e_from e, w) pre \/ In (e_from e) chain) -> In (e_to e) chain -> e_lag e <= 0) ->
  (forall m w w', In (m, w) pre -> In (m, w') sd0 -> False) -> (forall m w', In m chain -> In (m, w') sd0 -> False) ->
  jit_place g est team c curr chain None (pre ++ sd0) = Some (fin, sd') ->
  fin <= st + jit_chain_exec g est sd0 team cur0 chain /\ 0 <= jit_chain_exec g est sd0 team cur0 chain <= fin.
Proof.
  intros Hest Hst. induction chain as [|n chain IH]; intros pre curr cur0 fin sd' Hc0 Hcurr H1 H2 Hpre Hlag Hd1 Hd2 H.
  - cbn [jit_place] in H. injection H as <- _. cbn [jit_chain_exec]. lia.
  - cbn [jit_place] in H. destruct (match inseparable_parent g n with Some _ => _ | None => true end); [|discriminate].
    cbn [jit_chain_exec].
    assert (He0 := Hest n team).
    assert (Mr := min_start_range g (pre ++ sd0) n). assert (Mr0 := min_start_range g sd0 n).
    assert (M1 : min_start_time g (pre ++ sd0) n <= Z.max curr (min_start_time g sd0 n)).
    { apply min_start_app_le; [lia|]. intros e w He Ht Hin. split; [eapply Hpre; eauto|].
      apply (Hlag e w He); [left; exact Hin|left; symmetry; exact Ht]. }
    assert (M2 : Z.max curr (min_start_time g (pre ++ sd0) n) >= Z.max cur0 (min_start_time g sd0 n)).
    { destruct (Z.le_gt_cases 0 (min_start_time g (pre ++ sd0) n)) as [L|L].
      - assert (A := min_start_app_ge g pre sd0 n Hd1 L). lia.
      - destruct (Z.le_gt_cases (min_start_time g sd0 n) 0) as [L'|L']; [lia|].
        exfalso. revert L L'. unfold min_start_time at 2. 
        destruct (max_default0_in (parent_times sd0 (edges_to g n))) as [->|E]; [lia|].
        apply parent_times_in in E as (e & w & He & Hw & ->).
        assert (He' := He). unfold edges_to in He'. apply filter_In in He' as [He' Ht]. apply Nat.eqb_eq in Ht.
        intros L L'. assert (A := min_start_ge g (pre ++ sd0) e w He'). rewrite Ht in A.
        rewrite sd_get_app in A. destruct (sd_get pre (e_from e)) as [w'|] eqn:Eg.
        + apply sd_get_in_weak in Eg. apply sd_get_in_weak in Hw. eauto.
        + specialize (A Hw). lia. }
    set (start := tmax (tadd curr 0) (min_start_time g (pre ++ sd0) n)) in *.
    assert (Es : start = Z.max curr (min_start_time g (pre ++ sd0) n)).
    { unfold start. rewrite tmax_spec. unfold tadd. rewrite set_time_in; [lia|inf; lia]. }
    clearbody start. subst start. set (start := Z.max curr (min_start_time g (pre ++ sd0) n)) in *.
    assert (Es0 : tmax cur0 (min_start_time g sd0 n) = Z.max cur0 (min_start_time g sd0 n)) by (rewrite tmax_spec; lia).
    rewrite Es0 in *. set (start0 := Z.max cur0 (min_start_time g sd0 n)) in *.
    assert (Hs : 0 <= start <= TIME_INF /\ start <= st + start0 /\ start0 <= start /\ 0 <= start0) by (unfold start, start0; lia).
    assert (Ef : tadd start (est n team) = Z.min TIME_INF (start + est n team)) by (apply tadd_min; lia).
    assert (Ef0 : tadd start0 (est n team) = Z.min TIME_INF (start0 + est n team)) by (apply tadd_min; lia).
    assert (Hcs : curr <= start) by (unfold start; lia). clearbody start start0.
    inf. apply (IH ((n, SW start (tadd start (est n team)) team c) :: pre) (tadd start (est n team)) (tadd start0 (est n team)) fin sd'); [lia|lia|lia|lia| | | | |exact H].
    + intros m w [[= <- <-]|Hin]; [cbn [sw_finish]; lia|]. apply Hpre in Hin. lia.
    + intros e w He [[[= E _]|Hin]|Hin] Ht; (apply (Hlag e w He); [|right; exact Ht]).
      * right. left. exact E.
      * left. exact Hin.
      * right. right. exact Hin.
    + intros m w w' [[= <- _]|Hin] Hin'; [eapply Hd2; [left; reflexivity|exact Hin']|eauto].
    + intros m w' Hin. apply Hd2. right. exact Hin.
Qed.

Section Land.
  Variables (g : graph) (est : nat -> list worker -> Z).
  Variable route : Z -> nat -> nat -> list nat.
  Variable overcome : nat -> Z.
  Variable holders : nat -> list SupplyModel.depot.
  Variable storage : nat -> nat -> Z.
  Variable platform : nat -> nat.
  Variable needs : nat -> SupplyModel.request.
  Variable cost : nat -> nat -> Z.
  Variable zones : nat -> list zreq.
  Variable start : nat -> option nat.
  Hypothesis Hest : estimator_ok est.

  Let mtime := land_material_time route overcome holders storage platform needs.
  Let deliv := land_deliver route overcome holders storage platform needs.
  Let ztime := land_zone_time cost zones.
  Let occup := land_occupy cost zones.
  Let hist := SupplyModel.history_of route overcome holders storage.
  Let lmat := land_mat route overcome holders storage platform needs.
  Let ldel := land_del route overcome holders storage platform needs.
  Lemma land_zone_range x n t e r : ztime x n t e = Some r -> - TIME_INF <= r <= TIME_INF.
  Proof. unfold ztime, land_zone_time. destruct (find_min_zone_time _ _ _ _ _); [|discriminate]. intros [= <-]. apply set_time_range. Qed.
  Let lzone := land_zone_range.

  Lemma jplace_zones team c : forall chain times curr sd x fin sd' x',
    jsite_place g est land deliv team c curr chain times sd x = Some (fin, sd', x') -> snd x' = snd x.
  Proof.
    induction chain as [|n chain IH]; intros times curr sd x fin sd' x' H; simpl in H; [injection H as _ _ <-; reflexivity|].
    destruct (match inseparable_parent g n with Some _ => _ | None => true end); [|discriminate].
    destruct (match times with Some _ => _ | None => _ end) as [t tr].
    destruct (deliv x n _) as [[a x1]|] eqn:Ed; [|discriminate]. apply deliv_zones in Ed. apply IH in H. congruence.
  Qed.
  Lemma jplace_plat team c : forall chain times curr sd x fin sd' x', SupplyProofs4.plat_ok (fst x) ->
    jsite_place g est land deliv team c curr chain times sd x = Some (fin, sd', x') -> SupplyProofs4.plat_ok (fst x').
  Proof.
    induction chain as [|n chain IH]; intros times curr sd x fin sd' x' Hp H; simpl in H; [injection H as _ _ <-; exact Hp|].
    destruct (match inseparable_parent g n with Some _ => _ | None => true end); [|discriminate].
    destruct (match times with Some _ => _ | None => _ end) as [t tr].
    destruct (deliv x n _) as [[a x1]|] eqn:Ed; [|discriminate]. apply IH in H; [exact H|]. eapply deliv_plat; eauto.
  Qed.
  Lemma jplace_nothing team c : forall chain times curr sd x, (forall m, In m chain -> needs m = []) -> curr <= TIME_INF ->
    jsite_place g est land deliv team c curr chain times sd x =
    match jit_place g est team c curr chain times sd with Some (fin, sd') => Some (fin, sd', x) | None => None end.
  Proof.
    induction chain as [|n chain IH]; intros times curr sd x Hn Hc; cbn [jsite_place jit_place]; [reflexivity|].
    destruct (match inseparable_parent g n with Some _ => _ | None => true end); [|reflexivity].
    destruct (match times with Some _ => _ | None => _ end) as [t tr].
    set (start0 := tmax (tadd curr 0) (min_start_time g sd n)).
    assert (Hr : - TIME_INF <= start0 <= TIME_INF).
    { unfold start0. rewrite tmax_spec. assert (A := min_start_range g sd n).
      assert (B : - TIME_INF <= tadd curr 0 <= TIME_INF) by apply set_time_range. lia. }
    clearbody start0. unfold deliv. rewrite deliver_nothing; [|apply Hn; left; reflexivity|exact Hr].
    replace (tmax start0 start0) with start0 by (rewrite tmax_spec; lia).
    apply IH; [|apply set_time_range]. intros m Hm. apply Hn. right. exact Hm.
  Qed.

  (** ** Deliveries *)
  Lemma jplace_history team c : forall chain times curr sd x fin sd' x',
    match times with Some l => Forall (fun t => 0 <= t) l | None => True end -> 0 <= curr <= TIME_INF ->
    jsite_place g est land deliv team c curr chain times sd x = Some (fin, sd', x') ->
    exists new out, sd' = rev new ++ sd /\ hist (fst x) (map call_of out) = SupplyModel.Fine (out, fst x') /\ Forall2 (supplied platform needs) new out.
  Proof.
    induction chain as [|n chain IH]; intros times curr sd x fin sd' x' Ht Hc H.
    - simpl in H. injection H as _ <- <-. exists [], []. repeat split; constructor.
    - cbn [jsite_place] in H. destruct (match inseparable_parent g n with Some _ => _ | None => true end); [|discriminate].
      assert (He := Hest n team). assert (Hmin := min_start_range g sd n).
      set (start0 := tmax (tadd curr 0) (min_start_time g sd n)) in *.
      assert (Hs : curr <= start0 <= TIME_INF).
      { unfold start0. rewrite tmax_spec. assert (A := tadd_ge curr 0 ltac:(lia) (proj2 Hc)).
        assert (B : tadd curr 0 <= TIME_INF) by apply set_time_range. lia. }
      clearbody start0.
      assert (Ht' : forall t tr, (match times with None => (est n team, None) | Some [] => (est n team, Some []) | Some (t :: tr) => (t, Some tr) end) = (t, tr) ->
          0 <= t /\ match tr with Some l => Forall (fun t => 0 <= t) l | None => True end).
      { intros t tr E. destruct times as [[|t0 tr0]|]; injection E as <- <-; [split; [lia|constructor]| |split; [lia|exact I]].
        inversion Ht; subst. auto. }
      destruct (match times with Some _ => _ | None => _ end) as [t tr].
      destruct (Ht' t tr eq_refl) as [H0 Htr].
      destruct (deliv x n start0) as [[a x1]|] eqn:Ed; [|discriminate]. assert (Ha := ldel _ _ _ _ _ Ed).
      set (sta := tmax a start0) in *.
      assert (Hs2 : curr <= sta <= TIME_INF) by (unfold sta; rewrite tmax_spec; lia).
      assert (G2 := tadd_ge sta t H0 (proj2 Hs2)). assert (R2 : tadd sta t <= TIME_INF) by apply set_time_range.
      destruct (IH _ (tadd sta t) _ _ fin sd' x' Htr ltac:(lia) H) as (new & out & A1 & A2 & A3).
      unfold deliv, land_deliver in Ed. destruct (SupplyModel.deliver _ _ _ _ _ _ _ _) as [[[d r] s1]| |] eqn:E; try discriminate.
      injection Ed as <- <-. cbn [fst snd] in *.
      exists ((n, SW sta (tadd sta t) team c) :: new), ((SupplyModel.Call (platform n) start0 (needs n), d, r) :: out).
      split; [rewrite A1; simpl; rewrite <- app_assoc; reflexivity|]. split.
      + unfold hist in *. cbn [map call_of fst SupplyModel.history_of SupplyModel.c_platform SupplyModel.c_deadline SupplyModel.c_needs]. rewrite E, A2. reflexivity.
      + constructor; [|exact A3]. cbn. repeat split; [lia|]. unfold sta. rewrite tmax_spec. lia.
  Qed.

  Section Run.
    Variable optimize : nat -> nat -> sched -> jtimeline * land -> list border -> option (list bool) -> list Z -> option (list Z).
    Variables (cs : list contractor) (spec : nat -> work_spec) (apt : Z).
    Hypothesis Hcs : contractors_ok cs.
    Hypothesis Hopt : forall n c sd s, optimizer_ok (optimize n c sd s).
    Hypothesis Hreqs : forall n, reqs_ok (reqs_of g n).
    Hypothesis Hvol : forall n, 0 <= volume_of g n.
    Hypothesis Hspec : forall n, spec_ok (spec n).
    Hypothesis Hfit : forall n, spec_fits cs (reqs_of g n) (spec n).
    Hypothesis Hapt : 0 <= apt <= TIME_INF.
    Let p := pool_of cs.
    Let jfind := jsite_find g est land mtime ztime.
    Let sched1 := jsite_schedule g est land mtime deliv ztime occup.
    Let step := build_step (jtimeline * land) jfind sched1 (reqs_of g) optimize cs spec.
    Let loop := build_loop (jtimeline * land) jfind sched1 (reqs_of g) optimize cs spec.
    Let scall := jsite_step_call g est land mtime deliv ztime occup lmat ldel lzone p Hvol optimize cs spec apt eq_refl Hcs Hopt Hreqs Hspec Hfit Hapt.
    Let sinv1 := jsite_step_inv g est land mtime deliv ztime occup lmat ldel lzone Hest p Hvol optimize cs spec apt eq_refl Hcs Hopt Hreqs Hspec Hfit Hapt.

    Lemma jchain_times n c : chain_of g n = Some c ->
      match (match sp_time (spec n) with Some a => Some (assigned_exec_times (map (volume_of g) c) a) | None => None end) with
      | Some l => Forall (fun t => 0 <= t) l | None => True end.
    Proof.
      intros Ech. destruct (Hspec n) as [_ Hspt]. destruct (sp_time (spec n)) as [a|]; [|exact I].
      destruct (chain_head _ _ _ Ech) as [r Er].
      destruct (assigned_times_spec (map (volume_of g) c) a) as (A1 & A2 & _); [rewrite Er; discriminate| |exact Hspt|exact A2].
      apply Forall_forall. intros v Hv. apply in_map_iff in Hv as (m & <- & _). apply Hvol.
    Qed.

    Lemma jstep_history is_first is_last n sd s x sd' s' x' : jinv p s -> times_le TIME_INF s ->
      (is_first = true -> sd = [] /\ s = jit_init p) -> (is_first = false -> sd <> []) ->
      step is_first is_last apt n sd (s, x) = Done (sd', (s', x')) ->
      exists new out, sd' = rev new ++ sd /\ hist (fst x) (map call_of out) = SupplyModel.Fine (out, fst x') /\ Forall2 (supplied platform needs) new out.
    Proof.
      intros Hi Hle Hfirst Hnf Hs.
      destruct (scall is_first is_last n sd s x sd' s' x' Hi Hle Hfirst Hnf Hs) as (ct & t & st & _ & _ & _ & Hst & _ & _ & Em & _).
      unfold jsite_schedule in Em. destruct (chain_of g n) as [c|] eqn:Ech; [|discriminate].
      assert (Ht := jchain_times n c Ech).
      destruct (jsite_place _ _ _ _ _ _ _ _ _ _ _) as [[[fin sd1] x1]|] eqn:Ep; [|discriminate].
      destruct (jit_update _ _ _ _) as [s1|] eqn:Eu; [|discriminate].
      destruct (occup _ _ _ _ _) as [x2|] eqn:Eo; [|discriminate]. injection Em as <- <- <-.
      destruct (jplace_history _ _ _ _ _ _ _ _ _ _ Ht Hst Ep) as (new & out & A1 & A2 & A3).
      exists new, out. split; [exact A1|]. split; [|exact A3]. rewrite A2. f_equal. f_equal.
      unfold occup, land_occupy in Eo. destruct (update_zones _ _ _ _ _ _) as [[z ?]|]; [|discriminate]. injection Eo as <-. reflexivity.
    Qed.

    Lemma jloop_history : forall nodes is_first chains rest sd s x h sd' s' x',
      jtinv g p (staffed g cs spec) chains sd s h ->
      (is_first = true -> sd = [] /\ s = jit_init p) -> (is_first = false -> sd <> []) ->
      chains_of g nodes = Some rest -> NoDup (concat (chains ++ rest)) ->
      loop is_first apt nodes sd (s, x) = Done (sd', (s', x')) ->
      exists new out, sd' = rev new ++ sd /\ hist (fst x) (map call_of out) = SupplyModel.Fine (out, fst x') /\ Forall2 (supplied platform needs) new out.
    Proof.
      induction nodes as [|n nodes IH]; intros is_first chains rest sd s x h sd' s' x' HI Hf Hnf Hch Hnd Hl; unfold loop in Hl; cbn [build_loop] in Hl.
      - injection Hl as <- <- <-. exists [], []. repeat split; constructor.
      - cbn [chains_of] in Hch. destruct (chain_of g n) as [c|] eqn:Ec; [|discriminate].
        destruct (chains_of g nodes) as [rest'|] eqn:Er; [|discriminate]. injection Hch as <-.
        destruct (build_step _ _ _ _ _ _ _ _ _ _ _ _ _) as [[sd1 [s1 x1]]| |] eqn:Es; try discriminate.
        assert (Eapp : chains ++ c :: rest' = (chains ++ [c]) ++ rest') by (rewrite <- app_assoc; reflexivity).
        rewrite Eapp in *. rewrite concat_app in Hnd.
        destruct (jstep_history _ _ _ _ _ _ _ _ _ (j_inv _ _ _ _ _ _ _ HI) (j_le _ _ _ _ _ _ _ HI) Hf Hnf Es) as (new1 & out1 & A1 & A2 & A3).
        destruct (sinv1 _ _ _ _ _ _ _ _ _ _ _ _ HI Hf Hnf Ec (nodup_app_l _ _ Hnd) Es) as [Hne [h1 HI1]].
        rewrite <- concat_app in Hnd.
        destruct (IH false (chains ++ [c]) rest' sd1 s1 x1 h1 sd' s' x' HI1 ltac:(discriminate) ltac:(auto) eq_refl Hnd Hl) as (new2 & out2 & B1 & B2 & B3).
        exists (new1 ++ new2), (out1 ++ out2). split; [rewrite B1, A1, rev_app_distr, app_assoc; reflexivity|].
        split; [|apply Forall2_app; assumption]. rewrite map_app. eapply history_app; eauto.
    Qed.

    (** ** Zones *)
    Section Zones.
    Hypothesis cost0 : forall s q, s <> q -> cost s q = 0.
    Hypothesis Hzones : forall n, NoDup (map fst (zones n)) /\ forall r, In r (zones n) -> start (fst r) <> None.
    Hypothesis Hnoneeds : forall n c m, chain_of g n = Some c -> zones n <> [] -> In m c -> needs m = [].
    Hypothesis Hnolag : forall n c e, chain_of g n = Some c -> zones n <> [] -> In e (g_edges g) -> In (e_from e) c -> In (e_to e) c -> e_lag e <= 0.
    Hypothesis Hnotime : forall n, zones n <> [] -> sp_time (spec n) = None.

    Lemma jstep_oinv is_first is_last n chains sd s x h occ H sd' s' x' c :
      jtinv g p (staffed g cs spec) chains sd s h -> oinv zones start chains sd x occ H ->
      (is_first = true -> sd = [] /\ s = jit_init p /\ zones n = []) -> (is_first = false -> sd <> []) ->
      chain_of g n = Some c -> NoDup (concat (chains ++ [c])) ->
      step is_first is_last apt n sd (s, x) = Done (sd', (s', x')) ->
      (forall m w, In (m, w) sd' -> 2 * sw_finish w < TIME_INF) ->
      exists occ' H', oinv zones start (chains ++ [c]) sd' x' occ' H'.
    Proof.
      intros HI [OP OW OH OI OK] Hfirst Hnf Hch Hnd Hs Hfin.
      assert (Hi := j_inv _ _ _ _ _ _ _ HI). assert (Hle := j_le _ _ _ _ _ _ _ HI). assert (Hkeys := j_keys _ _ _ _ _ _ _ HI).
      destruct (scall is_first is_last n sd s x sd' s' x' Hi Hle (fun E => conj (proj1 (Hfirst E)) (proj1 (proj2 (Hfirst E)))) Hnf Hs)
        as (ct & t & st & Hct & Ht & Htw & Hst & Hlate & Hstaff & Em & Hfound).
      destruct (jsite_schedule_spec g est land mtime deliv ztime occup lmat ldel lzone Hest p Hvol
        sd s x n t (ct_id ct) (spec n) st apt sd' s' x' h (Hspec n) Hi (j_cov _ _ _ _ _ _ _ HI) Hle Htw Hst Hlate Em)
        as (chain & new & fin & A1 & A2 & A3 & A5 & A6 & _).
      rewrite Hch in A1. injection A1 as <-.
      destruct (chain_head g n c Hch) as [r Er].
      assert (Hdisj : forall m, In m (concat chains) -> In m c -> False).
      { intros m H1 H2. rewrite concat_app in Hnd. simpl in Hnd. rewrite app_nil_r in Hnd. eapply nodup_app_disj; eauto. }
      assert (Hsdin : forall m w, In (m, w) sd -> In m (concat chains)).
      { intros m w Hin. apply in_sd_key in Hin. rewrite Hkeys in Hin. apply in_rev in Hin. exact Hin. }
      assert (Hold : forall hd r0 z q, In (hd :: r0) chains -> In (z, q) (zones hd) ->
        exists i lo hi, In (Oc i z q lo hi) occ /\
          forall m w, In m (hd :: r0) -> In (m, w) sd' -> lo <= sw_start w /\ sw_finish w <= hi).
      { intros hd r0 z q Hc Hz. destruct (OK hd r0 z q Hc Hz) as (i & lo & hi & Ho & Hw). exists i, lo, hi. split; [exact Ho|].
        intros m w Hm Hin. apply (Hw m w Hm). rewrite A2 in Hin. apply in_app_or in Hin as [Hin|Hin]; [|exact Hin].
        exfalso. apply (Hdisj m); [eapply in_concat_elem; eauto|]. rewrite <- A3. apply in_rev in Hin. apply (in_sd_key new m w Hin). }
      assert (Hlen' : (length sd <= length sd')%nat) by (rewrite A2, app_length; lia).
      assert (Em' := Em). unfold jsite_schedule in Em'. rewrite Hch in Em'.
      set (times := match sp_time (spec n) with Some a => _ | None => None end) in Em'.
      destruct (jsite_place g est land deliv (to_workers t) (ct_id ct) st c times sd x) as [[[fin1 sd1] x1]|] eqn:Ep; [|discriminate].
      destruct (jit_update (sp_independent (spec n)) fin1 (to_workers t) s) as [s1|] eqn:Eu; [|discriminate].
      destruct (occup x1 (Z.of_nat (length sd1)) n st (tsub fin1 st)) as [x2|] eqn:Eo; [|discriminate].
      injection Em' as -> -> ->.
      assert (Hpl1 : SupplyProofs4.plat_ok (fst x1)) by (eapply jplace_plat; eauto).
      assert (Hz1 : snd x1 = snd x) by (eapply jplace_zones; eauto).
      destruct (zones n) as [|zr zs] eqn:Ezn.
      { assert (Ex : x' = x1).
        { unfold occup, land_occupy in Eo. rewrite Ezn in Eo. simpl in Eo. injection Eo as <-. destruct x1; reflexivity. }
        subst x'. exists occ, H. constructor; auto.
        - rewrite Hz1. exact OW.
        - intros o Ho. specialize (OI o Ho). lia.
        - intros hd r0 z q Hc Hz. apply in_app_or in Hc as [Hc|[Hc|[]]]; [eauto|].
          rewrite Er in Hc. injection Hc as <- <-. rewrite Ezn in Hz. destruct Hz. }
      assert (Hne : zones n <> []) by (rewrite Ezn; discriminate). rewrite <- Ezn in *. clear zr zs Ezn.
      destruct Hfound as [Hf|(c' & Hc' & Hft & mt & zt & Emt & Hmt & Ezt & Hzt)]; [destruct (Hfirst Hf) as (_ & _ & F); contradiction|].
      rewrite Hch in Hc'. injection Hc' as <-.
      set (exec := jit_chain_exec g est sd (to_workers t) 0 c) in *.
      assert (Et : times = None) by (unfold times; rewrite (Hnotime n Hne); reflexivity).
      rewrite Et in Ep. clear times Et.
      rewrite jplace_nothing in Ep; [|intros m Hm; apply (Hnoneeds n c m Hch Hne Hm)|lia].
      destruct (jit_place g est (to_workers t) (ct_id ct) st c None sd) as [[finj sdj]|] eqn:Ej; [|discriminate].
      injection Ep as -> -> <-.
      assert (Hnew0 : new <> []) by (intros ->; rewrite Er in A3; discriminate).
      assert (Efin : fin = fin1).
      { destruct (jit_place_shape g est _ _ Hest _ _ None _ _ _ I (proj2 Hst) Ej) as (new' & M1 & M2 & M3 & _).
        assert (new' = new).
        { rewrite A2 in M1. apply app_inv_tail in M1. rewrite <- (rev_involutive new'), <- M1, rev_involutive. reflexivity. }
        subst new'. destruct (consecutive_last _ _ _ _ _ A5 Hnew0) as (m & v & Hin & E1).
        destruct (consecutive_in _ _ _ _ _ _ _ M3 Hin) as (_ & Q1 & _).
        destruct (consecutive_last _ _ _ _ _ M3 Hnew0) as (m' & v' & Hin' & E1').
        destruct (consecutive_in _ _ _ _ _ _ _ A5 Hin') as (_ & Q1' & _). lia. }
      subst fin1.
      assert (Hfh : 2 * fin < TIME_INF).
      { destruct (consecutive_last _ _ _ _ _ A5 Hnew0) as (m & v & Hin & E1). rewrite <- E1. apply (Hfin m v).
        rewrite A2. apply in_or_app. left. apply in_rev. rewrite rev_involutive. exact Hin. }
      assert (Hsf := consecutive_le _ _ _ _ _ A5).
      assert (F : fin <= st + exec /\ 0 <= exec <= fin).
      { apply (jit_place_fin g est (to_workers t) (ct_id ct) st sd Hest (proj1 Hst) c [] st 0 fin sd'); [lia|lia|lia|lia| | | | |exact Ej].
        - intros m w [].
        - intros e w He [[]|Hfr] Hto. eapply Hnolag; eauto.
        - intros m w w' [].
        - intros m w' Hm Hin. apply (Hdisj m); [eapply Hsdin; eauto|exact Hm]. }
      destruct F as [F1 F2].
      destruct (Hzones n) as [Znd Zst].
      destruct (find_ok cost cost0 start (snd x) occ H (zones n) st exec OW Znd Zst ltac:(lia) ltac:(lia) ltac:(lia)) as (zt' & Ezt' & Hzt' & Hzok).
      assert (zt' = st).
      { unfold ztime, land_zone_time in Ezt. rewrite Ezt' in Ezt. cbn [option_map] in Ezt. injection Ezt as Ezt. rewrite set_time_in in Ezt by (inf; lia). lia. }
      subst zt'.
      set (H' := Z.max H fin). set (exec' := fin - st).
      destruct (update_ok cost cost0 start (Z.of_nat (length sd')) st exec' H' ltac:(unfold exec'; lia) ltac:(unfold exec'; lia) ltac:(unfold exec'; lia) ltac:(unfold exec'; lia) ltac:(unfold H', exec'; lia)
                  (zones n) (snd x) occ) as (tl' & ts & Eup & W').
      - eapply winv_mono; [|exact OW]. unfold H'. lia.
      - exact Znd.
      - intros zr Hr. split; [eapply zone_ok_shorter; [|apply Hzok; exact Hr]; unfold exec'; lia|]. split; [apply Zst, Hr|].
        intros o Ho _. specialize (OI o Ho). assert (length sd < length sd')%nat; [|lia].
        rewrite A2, app_length, rev_length. destruct new; [congruence|]. simpl. lia.
      - unfold occup, land_occupy in Eo. rewrite tsub_exact in Eo by lia.
        fold exec' in Eo. rewrite Eup in Eo. injection Eo as <-.
        exists (occ ++ map (fun zr => Oc (Z.of_nat (length sd')) (fst zr) (snd zr) st (st + exec')) (zones n)), H'.
        constructor; cbn [fst snd].
        + exact Hpl1.
        + exact W'.
        + unfold H'. lia.
        + intros o Ho. apply in_app_or in Ho as [Ho|Ho]; [specialize (OI o Ho); lia|]. apply in_map_iff in Ho as (zr & <- & _). cbn. lia.
        + intros hd r0 z q Hc Hz. apply in_app_or in Hc as [Hc|[Hc|[]]].
          * destruct (Hold hd r0 z q Hc Hz) as (i & lo & hi & Ho & Hw). exists i, lo, hi. split; [apply in_or_app; left; exact Ho|exact Hw].
          * rewrite Er in Hc. injection Hc as <- <-. exists (Z.of_nat (length sd')), st, (st + exec'). split.
            { apply in_or_app. right. apply in_map_iff. exists (z, q). split; [reflexivity|exact Hz]. }
            intros m v Hm Hin. rewrite A2 in Hin. apply in_app_or in Hin as [Hin|Hin].
            { apply in_rev in Hin. destruct (consecutive_in _ _ _ _ _ _ _ A5 Hin) as (Q1 & Q2 & _). unfold exec'. lia. }
            exfalso. apply (Hdisj m); [eapply Hsdin; eauto|]. rewrite Er. exact Hm.
    Qed.

    Lemma jloop_extends : forall nodes is_first sd sx sd' sx', loop is_first apt nodes sd sx = Done (sd', sx') ->
      forall m w, In (m, w) sd -> In (m, w) sd'.
    Proof.
      assert (P : forall team c chain curr times sd x fin sd' x', jsite_place g est land deliv team c curr chain times sd x = Some (fin, sd', x') ->
        forall m w, In (m, w) sd -> In (m, w) sd').
      { induction chain as [|n chain IH]; intros curr times sd x fin sd' x' H m w Hin; simpl in H; [injection H as _ <- _; exact Hin|].
        destruct (match inseparable_parent g n with Some _ => _ | None => true end); [|discriminate].
        destruct (match times with Some _ => _ | None => _ end) as [t tr].
        destruct (deliv x n _) as [[a x1]|] eqn:Ed; [|discriminate]. eapply IH; [exact H|right; exact Hin]. }
      induction nodes as [|n nodes IH]; intros is_first sd sx sd' sx' H m w Hin; unfold loop in H; cbn [build_loop] in H.
      - injection H as <- <-. exact Hin.
      - destruct (build_step _ _ _ _ _ _ _ _ _ _ _ _ _) as [[sd1 sx1]| |] eqn:Es; try discriminate.
        eapply IH; [exact H|]. unfold build_step in Es. destruct (run_contractor_search _ _ _) as [[[[st ft] ct] team]| |]; try discriminate.
        destruct (sched1 _ _ _ _ _ _ _ _) as [[sd2 sx2]|] eqn:Em; [|discriminate]. injection Es as <- <-.
        unfold sched1, jsite_schedule in Em. destruct sx as [s x]. destruct (chain_of g n); [|discriminate].
        destruct (jsite_place _ _ _ _ _ _ _ _ _ _ _) as [[[fin sd3] x1]|] eqn:Ep; [|discriminate].
        destruct (jit_update _ _ _ _); [|discriminate]. destruct (occup _ _ _ _ _); [|discriminate]. injection Em as <- <-.
        eapply P; eauto.
    Qed.

    Lemma jloop_oinv : forall nodes is_first chains rest sd s x h occ H sd' s' x',
      jtinv g p (staffed g cs spec) chains sd s h -> oinv zones start chains sd x occ H ->
      (is_first = true -> sd = [] /\ s = jit_init p /\ forall n, hd_error nodes = Some n -> zones n = []) -> (is_first = false -> sd <> []) ->
      chains_of g nodes = Some rest -> NoDup (concat (chains ++ rest)) ->
      loop is_first apt nodes sd (s, x) = Done (sd', (s', x')) ->
      (forall m w, In (m, w) sd' -> 2 * sw_finish w < TIME_INF) ->
      exists occ' H', oinv zones start (chains ++ rest) sd' x' occ' H'.
    Proof.
      induction nodes as [|n nodes IH]; intros is_first chains rest sd s x h occ H sd' s' x' HI HO Hf Hnf Hch Hnd Hl Hfin.
      - simpl in Hch. injection Hch as <-. rewrite app_nil_r. simpl in Hl. injection Hl as <- <- <-. eauto.
      - cbn [chains_of] in Hch. destruct (chain_of g n) as [c|] eqn:Ec; [|discriminate].
        destruct (chains_of g nodes) as [rest'|] eqn:Er; [|discriminate]. injection Hch as <-.
        unfold loop in Hl. cbn [build_loop] in Hl. fold loop in Hl. fold step in Hl.
        destruct (step _ _ _ _ _ _) as [[sd1 [s1 x1]]| |] eqn:Es; try discriminate.
        assert (Eapp : chains ++ c :: rest' = (chains ++ [c]) ++ rest') by (rewrite <- app_assoc; reflexivity).
        rewrite Eapp in *. rewrite concat_app in Hnd.
        assert (Hnd1 : NoDup (concat (chains ++ [c]))) by (eapply nodup_app_l; exact Hnd).
        assert (Hf' : is_first = true -> sd = [] /\ s = jit_init p) by (intros E; destruct (Hf E) as (F1 & F2 & _); auto).
        destruct (sinv1 _ _ _ _ _ _ _ _ _ _ _ _ HI Hf' Hnf Ec Hnd1 Es) as [Hne [h1 HI1]].
        destruct (jstep_oinv is_first (match nodes with [] => true | _ => false end) n chains sd s x h occ H sd1 s1 x1 c HI HO) as (occ1 & H1 & HO1); auto.
        { intros E. destruct (Hf E) as (F1 & F2 & F3). split; [exact F1|]. split; [exact F2|apply F3; reflexivity]. }
        { intros m w Hin. apply (Hfin m w). eapply jloop_extends; eauto. }
        apply (IH false (chains ++ [c]) rest' sd1 s1 x1 h1 occ1 H1 sd' s' x'); auto.
        + discriminate.
        + rewrite concat_app. exact Hnd.
    Qed.
    End Zones.
  End Run.
End Land.
