(** Lemmas about the list scheduler over the Momentum timeline with materials and zones. *)
From Coq Require Import ZArith List Bool Lia Arith Permutation.
From Coq Require Import ZifyBool ZifyNat.
From Verif Require Import TimeModel MomentumModel MomentumSpec MomentumHistory MomentumTeamProofs
  GraphModel ScheduleModel ScheduleSpec ContractorProofs ContractorTheorems TeamProofs ScheduleProofs
  SchedulePoolProofs ScheduleInv SiteModel.
Import ListNotations.
Local Open Scope Z_scope.

(** ** The loop *)
Lemma repeat_until_inv {A B} (P : A -> Prop) (Q : B -> Prop) (f : A -> A + B) :
  (forall a, P a -> match f a with inl a' => P a' | inr b => Q b end) ->
  forall p a, P a -> match repeat_until p f a with inl a' => P a' | inr b => Q b end.
Proof.
  intros Hf. induction p as [p IH|p IH|]; intros a Ha; cbn [repeat_until].
  - specialize (Hf a Ha). destruct (f a) as [a'|b]; [|exact Hf]. assert (H1 := IH a' Hf).
    destruct (repeat_until p f a') as [a''|b]; [apply IH, H1|exact H1].
  - assert (H1 := IH a Ha). destruct (repeat_until p f a) as [a'|b]; [apply IH, H1|exact H1].
  - apply Hf, Ha.
Qed.
(** Each round lessens a number that is never negative. *)
Lemma repeat_until_ends {A B} (P : A -> Prop) (m : A -> Z) (f : A -> A + B) :
  (forall a, P a -> 0 <= m a) ->
  (forall a, P a -> match f a with inl a' => P a' /\ m a' < m a | inr _ => True end) ->
  forall p a, P a -> match repeat_until p f a with inl a' => P a' /\ m a' <= m a - Zpos p | inr _ => True end.
Proof.
  intros Hm Hf. induction p as [p IH|p IH|]; intros a Ha; cbn [repeat_until].
  - specialize (Hf a Ha). destruct (f a) as [a'|b]; [|exact I]. destruct Hf as [Ha' Hl].
    assert (H1 := IH a' Ha'). destruct (repeat_until p f a') as [a''|b]; [|exact I]. destruct H1 as [H1 H2].
    assert (H3 := IH a'' H1). destruct (repeat_until p f a'') as [a3|b]; [|exact I]. split; [apply H3|lia].
  - assert (H1 := IH a Ha). destruct (repeat_until p f a) as [a'|b]; [|exact I]. destruct H1 as [H1 H2].
    assert (H3 := IH a' H1). destruct (repeat_until p f a') as [a3|b]; [|exact I]. split; [apply H3|lia].
  - specialize (Hf a Ha). destruct (f a) as [a'|b]; [|exact I]. split; [apply Hf|lia].
Qed.

Lemma find_min_start_min tl c chain ind pt d team r :
  find_min_start_time tl c chain ind pt d team = Some r -> Z.min pt TIME_INF <= r.
Proof.
  unfold find_min_start_time. destruct (forallb fst chain); [intros [= <-]; lia|].
  destruct (chain_lacks_workers _ _ _ _) as [[|]|]; try discriminate.
  - intros [= <-]. unfold time_inf. change (set_time TIME_INF) with TIME_INF. lia.
  - destruct chain as [|[b reqs] ch]; [discriminate|]. intros H. apply queue_loop_ge in H. lia.
Qed.

Section Site.
  Variables (g : graph) (est : nat -> list worker -> Z) (site : Type).
  Variable material_time : site -> nat -> Z -> option Z.
  Variable deliver : site -> nat -> Z -> option (Z * site).
  Variable zone_time : site -> nat -> Z -> Z -> option Z.
  Variable occupy : site -> Z -> nat -> Z -> Z -> option site.
  Hypothesis Hmat : forall x n t r, material_time x n t = Some r -> r <= TIME_INF.
  Hypothesis Hdel : forall x n t r x', deliver x n t = Some (r, x') -> r <= TIME_INF.
  Hypothesis Hzone : forall x n t e r, zone_time x n t e = Some r -> r <= TIME_INF.
  Hypothesis Hest : estimator_ok est.

  Let find := site_find g est site material_time zone_time.
  Let place := site_place site deliver.
  Let schedule := site_schedule g est site material_time deliver zone_time occupy.

  (** ** Placement *)
  Lemma site_place_ge team c : forall chain times curr sd x fin sd' x',
    Forall (fun y => 0 <= fst y /\ 0 <= snd y) times -> curr <= TIME_INF ->
    place team c curr chain times sd x = Some (fin, sd', x') -> curr <= fin <= TIME_INF.
  Proof.
    induction chain as [|n chain IH]; intros times curr sd x fin sd' x' Ht Hc H; simpl in H; [injection H as <- _ _; lia|].
    destruct times as [|[lag t] times]; [injection H as <- _ _; lia|].
    inversion Ht as [|? ? [H1 H2] Ht']; subst. simpl in *.
    destruct (deliver x n (tadd curr lag)) as [[a x1]|] eqn:Ed; [|discriminate]. apply Hdel in Ed.
    assert (A := tadd_ge curr lag H1 Hc). assert (B : tadd curr lag <= TIME_INF) by apply set_time_range.
    assert (C := tadd_ge (tmax (tadd curr lag) a) t H2 ltac:(rewrite tmax_spec; lia)).
    apply IH in H; [rewrite tmax_spec in *; lia|exact Ht'|apply set_time_range].
  Qed.
  Lemma site_place_shape team c : forall chain times curr sd x fin sd' x',
    length times = length chain ->
    Forall (fun y => 0 <= fst y /\ 0 <= snd y) times -> curr <= TIME_INF ->
    place team c curr chain times sd x = Some (fin, sd', x') ->
    exists new, sd' = rev new ++ sd /\ map fst new = chain /\ consecutive team c curr new fin.
  Proof.
    induction chain as [|n chain IH]; intros times curr sd x fin sd' x' Hl Ht Hc H.
    - destruct times; [|discriminate]. simpl in H. injection H as <- <- _. exists []. simpl. repeat split; lia.
    - destruct times as [|[lag t] times]; [discriminate|]. simpl in H.
      inversion Ht as [|? ? [H1 H2] Ht']; subst. simpl in H1, H2.
      destruct (deliver x n (tadd curr lag)) as [[a x1]|] eqn:Ed; [|discriminate]. apply Hdel in Ed.
      assert (R1 : tadd curr lag <= TIME_INF) by apply set_time_range.
      set (start := tmax (tadd curr lag) a) in *.
      assert (Hs : tadd curr lag <= start <= TIME_INF) by (unfold start; rewrite tmax_spec; lia).
      assert (G1 := tadd_ge curr lag H1 Hc). assert (G2 := tadd_ge start t H2 ltac:(lia)).
      destruct (IH times _ _ _ fin sd' x' ltac:(simpl in Hl; lia) Ht' (proj2 (set_time_range (start + t))) H) as (new & A1 & A2 & A3).
      eexists ((n, SW start (tadd start t) team c) :: new). split.
      { rewrite A1. simpl. rewrite <- app_assoc. reflexivity. }
      split; [simpl; congruence|]. simpl. repeat split; auto; lia.
  Qed.

  Section Bound.
    Variables (team : list worker) (bound : nat -> Z) (base : Z).
    Hypothesis Hbound : forall n, - TIME_INF <= bound n <= TIME_INF.
    Hypothesis Hbase : 0 <= base <= TIME_INF.
    Lemma site_place_bound : forall chain exec e times c curr sd x fin sd' x', 0 <= exec <= TIME_INF ->
      chain_exec g est bound base team exec chain = (e, times) ->
      Z.min TIME_INF (base + exec) <= curr <= TIME_INF ->
      place team c curr chain times sd x = Some (fin, sd', x') ->
      Z.min TIME_INF (base + e) <= fin /\
      exists new, sd' = rev new ++ sd /\ map fst new = chain /\
        forall n w, In (n, w) new -> bound n <= sw_start w.
    Proof.
      induction chain as [|n chain IH]; intros exec e times c curr sd x fin sd' x' He H Hcurr Hp; simpl in H.
      - injection H as <- <-. simpl in Hp. injection Hp as <- <- _.
        split; [lia|]. exists []. simpl. split; [reflexivity|]. split; [reflexivity|]. intros n w [].
      - set (t := match reqs_of g n with [] => 0 | _ => est n team end) in *.
        assert (Ht : t = node_time g est team n) by reflexivity.
        set (lr := tsub (tsub (bound n) base) exec) in *.
        set (lag := if 0 <? lr then lr else 0) in *.
        assert (Ht0 := node_time_ok g est team Hest n). rewrite <- Ht in Ht0.
        assert (Hlag : lag = Z.max 0 (bound n - base - exec)).
        { unfold lag, lr, tsub. specialize (Hbound n).
          destruct (set_time_cases (bound n - base)) as [[E1 R1]|[[R1 E1]|[R1 E1]]]; rewrite E1.
          - destruct (set_time_cases (bound n - base - exec)) as [[E2 R2]|[[R2 E2]|[R2 E2]]]; rewrite E2;
              match goal with |- context [0 <? ?x] => destruct (Z.ltb_spec 0 x) end; inf; lia.
          - lia.
          - destruct (set_time_cases (- TIME_INF - exec)) as [[E2 R2]|[[R2 E2]|[R2 E2]]]; rewrite E2;
              match goal with |- context [0 <? ?x] => destruct (Z.ltb_spec 0 x) end; inf; lia. }
        destruct (chain_exec g est bound base team (tadd exec (tadd lag t)) chain) as [e' l] eqn:E.
        injection H as <- <-. simpl in Hp.
        destruct (deliver x n (tadd curr lag)) as [[a x1]|] eqn:Ed; [|discriminate]. apply Hdel in Ed.
        assert (Hb := Hbound n). inf.
        assert (Elt : tadd lag t = Z.min TIME_INF (lag + t)) by (apply tadd_min; lia).
        assert (Eex : tadd exec (tadd lag t) = Z.min TIME_INF (exec + lag + t)) by (rewrite tadd_min; lia).
        assert (Es : tadd curr lag = Z.min TIME_INF (curr + lag)) by (rewrite tadd_min; lia).
        set (start := tmax (tadd curr lag) a) in *.
        assert (Hs : tadd curr lag <= start <= TIME_INF) by (unfold start; rewrite tmax_spec; lia).
        assert (Ef : tadd start t = Z.min TIME_INF (start + t)) by (rewrite tadd_min; lia).
        destruct (IH (tadd exec (tadd lag t)) e' l c (tadd start t) _ _ _ _ _ ltac:(lia) E ltac:(lia) Hp)
          as [C1 (new & C2 & C3 & C4)].
        split; [exact C1|]. exists ((n, SW start (tadd start t) team c) :: new).
        split; [rewrite C2; simpl; rewrite <- app_assoc; reflexivity|]. split; [simpl; congruence|].
        intros m w [[= <- <-]|Hin]; [|apply (C4 _ _ Hin)]. simpl. lia.
    Qed.
  End Bound.

  (** ** The search *)
  Lemma agree_ge x n exec workers lo st : lo <= TIME_INF ->
    (forall cur r, workers cur = Some r -> Z.min cur TIME_INF <= r) ->
    forall base, lo <= base ->
    repeat_until search_bound (agree site material_time zone_time x n exec workers) base = inr (Some st) -> lo <= st.
  Proof.
    intros Hlo Hw base Hb E.
    assert (H := repeat_until_inv (fun c => lo <= c) (fun r => forall st, r = Some st -> lo <= st)
      (agree site material_time zone_time x n exec workers)).
    assert (Hstep : forall a, lo <= a -> match agree site material_time zone_time x n exec workers a with
                              | inl a' => lo <= a' | inr r => forall st, r = Some st -> lo <= st end).
    { intros a Ha. unfold agree. destruct (workers a) as [c|] eqn:Ec; [|discriminate]. apply Hw in Ec.
      destruct (material_time x n c) as [mt|]; [|discriminate]. unfold tlt.
      destruct (Z.ltb_spec c mt); [lia|]. destruct (zone_time x n c exec) as [zt|]; [|discriminate].
      destruct (Z.ltb_spec c zt); [lia|]. intros st0 [= <-]. lia. }
    specialize (H Hstep search_bound base Hb). rewrite E in H. apply H. reflexivity.
  Qed.

  Lemma site_find_start sd s x n team ind apt st ft times : 0 <= apt <= TIME_INF ->
    find sd (s, x) n team ind None apt = Some (st, ft, times) -> is_inf ft = false ->
    parent_bound g sd None apt n <= st <= TIME_INF.
  Proof.
    intros Hapt H Hft. unfold find, site_find in H.
    destruct (chain_of g n) as [chain|]; [|discriminate].
    destruct (parent_bound_range g sd None apt n Hapt I) as [Hb _].
    destruct (chain_exec _ _ _ _ _ _ _) as [exec tms] eqn:E.
    destruct (chain_exec_shape g est team Hest (parent_bound g sd None apt) (parent_bound g sd None apt n) chain 0 exec tms)
      as (_ & _ & He & _); [inf; lia|exact E|].
    destruct team as [|w team].
    { destruct (material_time x n _) as [mt|] eqn:Em; [|discriminate]. destruct (zone_time x n _ _) as [zt|] eqn:Ez; [|discriminate].
      apply Hmat in Em. apply Hzone in Ez. injection H as <- <- _. rewrite !tmax_spec. lia. }
    destruct (repeat_until _ _ _) as [?|[r|]] eqn:Ef; try discriminate.
    destruct (validate _ _ _ _); [|discriminate]. injection H as <- <- <-.
    assert (Hr0 : parent_bound g sd None apt n <= r).
    { eapply agree_ge; [| |reflexivity|exact Ef]; [lia|]. intros cur r0. apply find_min_start_min. }
    split; [exact Hr0|].
    assert (Hr := tadd_min r exec ltac:(lia) ltac:(lia)). unfold is_inf in Hft. inf. lia.
  Qed.
  Lemma site_find_range sd sx n team ind apt st ft times : 0 <= apt <= TIME_INF ->
    find sd sx n team ind None apt = Some (st, ft, times) -> - TIME_INF <= ft <= TIME_INF.
  Proof.
    intros Hapt H. destruct sx as [s x]. unfold find, site_find in H.
    destruct (chain_of g n) as [chain|]; [|discriminate].
    destruct (parent_bound_range g sd None apt n Hapt I) as [Hb _].
    destruct (chain_exec _ _ _ _ _ _ _) as [exec tms].
    destruct team as [|w team].
    { destruct (material_time x n _) as [mt|] eqn:Em; [|discriminate]. destruct (zone_time x n _ _) as [zt|] eqn:Ez; [|discriminate].
      apply Hmat in Em. apply Hzone in Ez. injection H as <- <- _. rewrite !tmax_spec. inf. lia. }
    destruct (repeat_until _ _ _) as [?|[r|]] eqn:Ef; try discriminate.
    destruct (validate _ _ _ _); [|discriminate]. injection H as <- <- <-. apply set_time_range.
  Qed.

  (** ** One call of schedule *)
  Lemma site_schedule_spec p h sd s x n t c sp st apt sd' s' x' :
    spec_ok sp -> (forall m, 0 <= volume_of g m) ->
    minv p h s -> m_index s < TIME_INF -> 0 <= apt <= TIME_INF -> team_ok t ->
    parent_bound g sd None apt n <= st <= TIME_INF ->
    schedule sd (s, x) n (to_workers t) c sp (Some st) apt = Some (sd', (s', x')) ->
    exists chain new st0 fin, chain_of g n = Some chain /\ sd' = rev new ++ sd /\ map fst new = chain /\
      st <= st0 /\ (to_workers t <> [] -> st0 = st) /\
      consecutive (to_workers t) c st0 new fin /\ fin <= TIME_INF /\
      minv p (booked (Rq fin (fin - st0) t) ++ h) s' /\ m_index s' <= m_index s + 1 /\
      (sp_time sp = None -> forall m w, In (m, w) new -> min_start_time g sd m <= sw_start w) /\
      (forall m w, hd_error new = Some (m, w) -> min_start_time g sd n <= sw_start w).
  Proof.
    intros [_ Hspt] Hvol Hm Hidx Hapt Ht Hst H. unfold schedule, site_schedule in H.
    destruct (chain_of g n) as [chain|] eqn:Ech; [|discriminate].
    destruct (site_find _ _ _ _ _ _ _ _ _ _ _ _) as [[[st0 ft0] times0]|] eqn:Ef; [|discriminate].
    destruct (parent_bound_range g sd None apt n Hapt I) as [Hb1 Hb2].
    assert (Hpb : parent_bound g sd (Some st) apt n = st).
    { unfold parent_bound in *. rewrite !tmax_spec in *. lia. }
    unfold site_find in Ef. rewrite Ech, Hpb in Ef.
    destruct (chain_exec g est (parent_bound g sd (Some st) apt) st (to_workers t) 0 chain) as [exec tms] eqn:Ec.
    assert (Hbr : forall m, - TIME_INF <= parent_bound g sd (Some st) apt m <= TIME_INF).
    { intros m. destruct (parent_bound_range g sd (Some st) apt m Hapt (proj2 Hst)). inf. lia. }
    assert (Hst0 : st <= st0 <= TIME_INF /\ (to_workers t <> [] -> st0 = st) /\ times0 = tms).
    { destruct (to_workers t) as [|w0 tw].
      - destruct (material_time x n _) as [mt|] eqn:Em; [|discriminate]. destruct (zone_time x n _ _) as [zt|] eqn:Ez; [|discriminate].
        apply Hmat in Em. apply Hzone in Ez. injection Ef as <- _ <-. rewrite !tmax_spec. split; [lia|]. split; [congruence|reflexivity].
      - destruct (validate _ _ _ _); [injection Ef as <- _ <-; auto|discriminate]. split; [lia|auto]. }
    destruct Hst0 as (Hst0 & Hsame & ->).
    destruct (chain_exec_shape g est (to_workers t) Hest (parent_bound g sd (Some st) apt) st chain 0 exec tms
               ltac:(inf; lia) Ec) as (L1 & L2 & L3 & _).
    set (times := match sp_time sp with Some a => _ | None => tms end) in H.
    assert (Hne : chain <> []).
    { unfold chain_of in Ech. destruct (inseparable_son g n); [destruct (inseparable_parent g n);
        [|destruct (inseparable_children _ _ _)]|]; try discriminate; injection Ech as <-; discriminate. }
    assert (Htimes : length times = length chain /\ Forall (fun x => 0 <= fst x /\ 0 <= snd x) times).
    { unfold times. destruct (sp_time sp) as [a|]; [|auto].
      destruct (assigned_times_spec (map (volume_of g) chain) a) as (A1 & A2 & _); [destruct chain; [congruence|discriminate]| |exact Hspt|].
      { apply Forall_forall. intros v Hv. apply in_map_iff in Hv as (m & <- & _). apply Hvol. }
      rewrite map_length in *. split; [exact A1|]. apply Forall_forall. intros y Hy. apply in_map_iff in Hy as (z & <- & Hz).
      rewrite Forall_forall in A2. simpl. split; [lia|apply A2; exact Hz]. }
    destruct Htimes as [T1 T2].
    destruct (site_place _ _ (to_workers t) c st0 chain times sd x) as [[[fin sd1] x1]|] eqn:Ep; [|discriminate].
    destruct (update_timeline _ _ _ _) as [s1|] eqn:Eu; [|discriminate].
    destruct (occupy _ _ _ _ _) as [x2|]; [|discriminate]. injection H as <- <- <-.
    destruct (site_place_shape _ _ _ _ _ _ _ _ _ _ T1 T2 (proj2 Hst0) Ep) as (new & N1 & N2 & N3).
    assert (Hge := site_place_ge _ _ _ _ _ _ _ _ _ _ T2 (proj2 Hst0) Ep).
    rewrite tsub_exact in Eu by lia.
    destruct (update_timeline_spec p h s fin (fin - st0) t Hm Hidx ltac:(lia) ltac:(lia) Ht) as [_ U].
    destruct (U _ Eu) as (_ & U2 & U3).
    exists chain, new, st0, fin. do 9 (split; [first [reflexivity|assumption|lia]|]). split.
    - intros Hno. unfold times in Ep. rewrite Hno in Ep.
      destruct (site_place_bound (to_workers t) (parent_bound g sd (Some st) apt) st Hbr ltac:(lia)
        chain 0 exec tms c st0 sd x fin sd1 x1 ltac:(inf; lia) Ec ltac:(lia) Ep) as [_ (new' & M1 & M2 & M3)].
      assert (new' = new).
      { rewrite N1 in M1. apply app_inv_tail in M1. rewrite <- (rev_involutive new'), <- M1, rev_involutive. reflexivity. }
      subst new'. intros m w Hin. assert (Hbm := M3 m w Hin).
      destruct (parent_bound_range g sd (Some st) apt m Hapt (proj2 Hst)). lia.
    - intros m w Hhd. destruct new as [|[m' w'] new]; [discriminate|]. injection Hhd as -> ->.
      simpl in N3. lia.
  Qed.

  (** ** The scheduler *)
  Section Loop.
    Variable optimize : nat -> nat -> sched -> mstate * site -> list border -> option (list bool) -> list Z -> option (list Z).
    Variables (cs : list contractor) (spec : nat -> work_spec) (apt : Z).
    Hypothesis Hcs : contractors_ok cs.
    Hypothesis Hopt : forall n c sd s, optimizer_ok (optimize n c sd s).
    Hypothesis Hreqs : forall n, reqs_ok (reqs_of g n).
    Hypothesis Hvol : forall n, 0 <= volume_of g n.
    Hypothesis Hspec : forall n, spec_ok (spec n).
    Hypothesis Hapt : 0 <= apt <= TIME_INF.

    Let sfind := site_times g est site material_time zone_time.
    Let step := build_step (mstate * site) sfind schedule (reqs_of g) optimize cs spec.
    Let loop := build_loop (mstate * site) sfind schedule (reqs_of g) optimize cs spec.

    Lemma site_runner_range sd s n c st ft tm :
      run_with_contractor (mstate * site) sfind (reqs_of g) optimize cs spec sd s n apt c = Done (st, ft, tm) ->
      - TIME_INF <= ft <= TIME_INF.
    Proof.
      unfold run_with_contractor. inf. destruct (get_worker_borders _ _ _) as [bs|].
      2: { intros [= <- <- <-]. unfold time_inf. apply set_time_range. }
      destruct (optimize_using_spec _ _ _ _) as [counts|]; [|discriminate].
      destruct (sfind _ _ _ _ _ _) as [[st' ft']|] eqn:Ef; [|discriminate]. intros [= <- <- <-].
      unfold sfind, site_times in Ef. destruct (site_find _ _ _ _ _ _ _ _ _ _ _ _) as [[[a b] l]|] eqn:E; [|discriminate].
      injection Ef as <- <-. eapply site_find_range; eauto.
    Qed.

    (** What one step does: the chosen contractor, team and start, and the call. *)
    Lemma site_step_call is_first is_last n sd s x sd' s' x' : (is_first = true -> sd = []) ->
      step is_first is_last apt n sd (s, x) = Done (sd', (s', x')) ->
      exists ct t st, In ct cs /\ team_ok t /\
        parent_bound g sd None apt n <= st <= TIME_INF /\
        (forall w, sw_team w = to_workers t -> sw_contractor w = ct_id ct -> staffed g cs spec n w) /\
        schedule sd (s, x) n (to_workers t) (ct_id ct) (spec n) (Some st) apt = Some (sd', (s', x')) /\
        (is_first = true \/ exists st0 ft times, find sd (s, x) n (to_workers t) (sp_independent (spec n)) None apt = Some (st0, ft, times) /\ is_inf ft = false /\
           st = (if is_last then tmax st0 0 else st0)).
    Proof.
      intros Hfirst H. unfold step, build_step in H.
      destruct (run_contractor_search _ _ _) as [[[[st ft] ct] team]| |] eqn:Es; try discriminate.
      apply contractor_search_best in Es; [|intros c0 st0 ft0 tm0; apply site_runner_range]. destruct Es as (Ein & Er & Eft & _).
      destruct (runner_team _ _ _ _ _ _ _ _ _ _ _ _ _ Hopt (Hreqs n) (Hspec n) Er Eft) as (t & -> & Ht & _ & _ & Ef & HF).
      set (st1 := if is_first then apt else st) in H.
      set (st2 := if is_last then tmax st1 0 else st1) in H.
      destruct (schedule _ _ _ _ _ _ _ _) as [[sd1 sx1]|] eqn:Em; [|discriminate].
      injection H as -> ->.
      assert (Hfd : exists times, find sd (s, x) n (to_workers t) (sp_independent (spec n)) None apt = Some (st, ft, times)).
      { unfold sfind, site_times in Ef. destruct (site_find _ _ _ _ _ _ _ _ _ _ _ _) as [[[a b] l]|] eqn:Emf; [|discriminate].
        injection Ef as -> ->. exists l. exact Emf. }
      destruct Hfd as [times Hfd].
      assert (Hst : parent_bound g sd None apt n <= st <= TIME_INF) by (eapply site_find_start; eauto).
      assert (Hst2 : parent_bound g sd None apt n <= st2 <= TIME_INF).
      { assert (H1 : parent_bound g sd None apt n <= st1 <= TIME_INF).
        { unfold st1. destruct is_first; [|exact Hst]. rewrite (Hfirst eq_refl).
          unfold parent_bound. rewrite min_start_nil, tmax_spec. lia. }
        unfold st2. destruct is_last; [|exact H1]. rewrite tmax_spec.
        destruct (parent_bound_range g sd None apt n Hapt I). inf. lia. }
      assert (Hct : In ct cs /\ contractor_enabled (spec n) (ct_id ct) = true).
      { unfold filter_contractors in Ein. apply filter_In in Ein. exact Ein. }
      exists ct, t, st2. split; [apply Hct|]. split; [exact Ht|]. split; [exact Hst2|]. split; [|split; [exact Em|]].
      - intros w B3 B4. exists ct. destruct Hct as [Hct1 Hct2]. split; [exact Hct1|]. split; [exact B4|]. split.
        { unfold contractor_enabled in Hct2. destruct (sp_contractors (spec n)) as [|y l]; [auto|].
          right. apply existsb_exists in Hct2 as (z & Hz & Hez). apply Nat.eqb_eq in Hez. subst z. exact Hz. }
        rewrite B3. clear -HF Hcs Hct1. change (u_reqs (g_unit g n)) with (reqs_of g n). revert HF.
        generalize (length (reqs_of g n)) as ln. intros ln HF.
        induction HF as [|rq k rs tm (D1 & D2 & D3 & cap & D4 & D5) HF IH]; constructor; [|exact IH].
        split; [exact D1|]. split; [exact D2|]. split; [exact D3|]. exists cap.
        split; [eapply capacity_pool_own; eauto|]. intros Hno. unfold count_ok in D5.
        rewrite Hno in D5. simpl in D5. lia.
      - destruct is_first; [left; reflexivity|]. right. exists st, ft, times. split; [exact Hfd|]. split; [exact Eft|]. reflexivity.
    Qed.

    Lemma site_step_inv is_first is_last n chains sd s x h sd' s' x' c :
      sinv g cs spec chains sd s h -> (is_first = true -> sd = []) ->
      Z.of_nat (length chains) < TIME_INF ->
      chain_of g n = Some c -> NoDup (concat (chains ++ [c])) ->
      (forall e, In e (g_edges g) -> In (e_from e) (concat (chains ++ [c])) -> In (e_to e) (concat (chains ++ [c])) ->
         comes_before (concat (chains ++ [c])) (e_from e) (e_to e)) ->
      step is_first is_last apt n sd (s, x) = Done (sd', (s', x')) ->
      exists h', sinv g cs spec (chains ++ [c]) sd' s' h'.
    Proof.
      intros HI Hfirst Hlen Hch Hnd Htopo H.
      destruct (site_step_call _ _ _ _ _ _ _ _ _ Hfirst H) as (ct & t & st & Hct & Ht & Hst & Hstaff & Em & _).
      assert (HX := i_idx _ _ _ _ _ _ _ _ HI). assert (HM := i_minv _ _ _ _ _ _ _ _ HI).
      destruct (site_schedule_spec (pool_of cs) h sd s x n t (ct_id ct) (spec n) st apt sd' s' x' (Hspec n) Hvol HM ltac:(lia) Hapt Ht Hst Em)
        as (chain & new & st0 & fin & A1 & A2 & A3 & A4 & _ & A5 & A6 & A7 & A8 & A9 & A10).
      rewrite Hch in A1. injection A1 as <-.
      assert (Hst0 : 0 <= st0). { destruct (parent_bound_range g sd None apt n Hapt I). lia. }
      exists (booked (Rq fin (fin - st0) t) ++ h). eapply placed_inv; eauto.
    Qed.

    Lemma site_loop_inv : forall nodes is_first chains rest sd s x h sd' s' x',
      sinv g cs spec chains sd s h -> (is_first = true -> sd = []) ->
      chains_of g nodes = Some rest ->
      Z.of_nat (length (chains ++ rest)) < TIME_INF ->
      NoDup (concat (chains ++ rest)) ->
      (forall e, In e (g_edges g) -> In (e_from e) (concat (chains ++ rest)) -> In (e_to e) (concat (chains ++ rest)) ->
         comes_before (concat (chains ++ rest)) (e_from e) (e_to e)) ->
      loop is_first apt nodes sd (s, x) = Done (sd', (s', x')) ->
      exists h', sinv g cs spec (chains ++ rest) sd' s' h'.
    Proof.
      induction nodes as [|n nodes IH]; intros is_first chains rest sd s x h sd' s' x' HI Hf Hch Hlen Hnd Htopo H.
      - simpl in Hch. injection Hch as <-. rewrite app_nil_r. simpl in H. injection H as <- <- <-. eauto.
      - cbn [chains_of] in Hch. destruct (chain_of g n) as [c|] eqn:Ec; [|discriminate].
        destruct (chains_of g nodes) as [rest'|] eqn:Er; [|discriminate]. injection Hch as <-.
        unfold loop in H. cbn [build_loop] in H. fold loop in H. fold step in H.
        destruct (step _ _ _ _ _ _) as [[sd1 [s1 x1]]| |] eqn:Es; try discriminate.
        assert (Eapp : chains ++ c :: rest' = (chains ++ [c]) ++ rest') by (rewrite <- app_assoc; reflexivity).
        rewrite Eapp in *. rewrite concat_app in Hnd, Htopo.
        assert (Hs : exists h1, sinv g cs spec (chains ++ [c]) sd1 s1 h1);
          [eapply site_step_inv; [exact HI|exact Hf| |exact Ec| | |exact Es]|destruct Hs as [h1 HI1]].
        { rewrite !app_length in Hlen. simpl in Hlen. lia. }
        { eapply nodup_app_l. exact Hnd. }
        { intros e He H1 H2. eapply comes_before_prefix; [exact Hnd| |exact H2].
          apply Htopo; [exact He|apply in_or_app; left; exact H1|apply in_or_app; left; exact H2]. }
        apply (IH false (chains ++ [c]) rest' sd1 s1 x1 h1 sd' s' x'); auto.
        + discriminate.
        + rewrite concat_app. exact Hnd.
        + rewrite concat_app. exact Htopo.
    Qed.

    Lemma site_build_feasible x0 nodes chains sd s x :
      chains_of g nodes = Some chains -> NoDup (concat chains) -> Z.of_nat (length nodes) < TIME_INF ->
      (forall e, In e (g_edges g) -> In (e_from e) (concat chains) -> In (e_to e) (concat chains) ->
         comes_before (concat chains) (e_from e) (e_to e)) ->
      site_build g est site material_time deliver zone_time occupy optimize cs spec x0 apt nodes = Done (sd, (s, x)) ->
      map fst sd = rev (concat chains) /\
      (forall n w, In (n, w) sd -> 0 <= sw_start w <= sw_finish w /\ sw_finish w <= TIME_INF) /\
      (forall e wu wv, In e (g_edges g) -> In (e_from e, wu) sd -> In (e_to e, wv) sd ->
         ~ same_chain chains (e_from e) (e_to e) -> not_pinned spec chains (e_to e) ->
         tadd (sw_finish wu) (e_lag e) <= sw_start wv) /\
      (forall c u v wu wv, In c chains -> comes_before c u v -> In (u, wu) sd -> In (v, wv) sd ->
         sw_finish wu <= sw_start wv /\ sw_team wu = sw_team wv /\ sw_contractor wu = sw_contractor wv) /\
      (forall hd r n w, In (hd :: r) chains -> In n (hd :: r) -> In (n, w) sd -> staffed g cs spec hd w) /\
      (forall ct k n t, In ct cs -> In (k, n) (ct_workers ct) ->
         busy (schedule_bookings sd) (ct_id ct, k) t <= n).
    Proof.
      intros Hch Hnd Hlen Htopo H.
      assert (HI : exists h, sinv g cs spec ([] ++ chains) sd s h).
      { eapply site_loop_inv; [apply (sinv_init g cs spec Hcs)|reflexivity|exact Hch| |exact Hnd|exact Htopo|exact H].
        simpl. rewrite (chains_of_length _ _ _ Hch). exact Hlen. }
      destruct HI as [h [K M X L T TM P C]]. simpl in *.
      do 5 (split; [assumption|]). intros ct k n t Hct Hin.
      assert (Hcap := capacity_pool cs ct k n Hcs Hct Hin).
      destruct (Z.ltb_spec t 0).
      - rewrite busy_before_zero; [|intros m w Hm; apply (T m w Hm)|assumption]. destruct Hcs as [_ Hok].
        destruct (Hok ct Hct) as [_ Hn]. eapply Hn; eauto.
      - eapply Z.le_trans; [apply L|]. eapply minv_busy_le; eauto.
    Qed.
  End Loop.
End Site.
