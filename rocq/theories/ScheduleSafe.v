(** The list scheduler over the Momentum timeline raises no internal error. *)
From Coq Require Import ZArith List Bool Lia Arith Permutation.
From Coq Require Import ZifyBool ZifyNat.
From Verif Require Import TimeModel MomentumModel MomentumSpec MomentumHistory MomentumInvProofs MomentumSlotProofs
  MomentumProofs MomentumTeamProofs
  GraphModel ScheduleModel ScheduleSpec ContractorProofs TeamProofs ScheduleProofs SchedulePoolProofs ScheduleInv.
Import ListNotations.
Local Open Scope Z_scope.

(** ** The search for independent works *)

Section Independent.
  Variables (p : pool) (h : history) (s : mstate) (c : nat) (team : list (nat * Z)) (d : Z).
  Hypothesis Hm : minv p h s.
  Hypothesis Hnd : NoDup (map fst team).
  Hypothesis Hd : 0 <= d.
  Hypothesis Henough : forall k n, In (k, n) team -> exists cap, capacity p (c, k) = Some cap /\ n <= cap.

  Definition feas_ind (k : nat) (t : Z) : Prop :=
    d = 0 \/ exists st, tl_get (m_tl s) (c, k) = Some st /\ last_time st <= t.

  Lemma kind_slot_ind k st : In k (map fst team) -> 0 <= st ->
    exists r, kind_slot (m_tl s) c (to_workers (kteam c team)) d true k st = Some r /\ st <= r /\
      feas_ind k r /\ (forall t, st <= t < r -> ~ feas_ind k t) /\ (r = st \/ In r (all_times (m_tl s))).
  Proof.
    intros Hk Hst. apply in_map_iff in Hk as ([k' n] & E & Hin). simpl in E. subst k'.
    destruct (Henough k n Hin) as (cap & Hc & Hle). destruct Hm as [Hn Hinv].
    assert (Ha := Hinv (c, k)). rewrite Hc in Ha. destruct Ha as (sta & Hg & Hi).
    unfold kind_slot. rewrite Hg, type2count_spec by exact Hnd.
    rewrite (find_in_team team k n Hnd Hin). simpl snd. unfold find_earliest_time_slot.
    destruct (Z.eqb_spec d 0) as [E0|E0].
    - exists st. split; [reflexivity|]. split; [lia|]. split; [left; exact E0|]. split; [lia|left; reflexivity].
    - rewrite (py_nth_m1 _ d0) by (eapply inv_ne; exact Hi).
      change (ev_time (last sta d0)) with (last_time sta).
      exists (tmax st (last_time sta)). split; [reflexivity|]. rewrite tmax_spec. split; [lia|]. split; [|split].
      + right. exists sta. split; [exact Hg|lia].
      + intros t Ht [F|(st' & G & F)]; [lia|]. rewrite Hg in G. injection G as <-. lia.
      + destruct (Z.max_spec st (last_time sta)) as [[_ ->]|[_ ->]]; [right|left; reflexivity].
        change (last_time sta) with (ev_time (last sta d0)).
        eapply all_times_in; [exact Hg|]. apply last_In. eapply inv_ne; exact Hi.
  Qed.

  Lemma feas_ind_fits t : 0 <= t -> (forall k, In k (map fst team) -> feas_ind k t) ->
    team_fits p h (kteam c team) t d.
  Proof.
    intros Ht H a n Hin. apply in_map_iff in Hin as ([k n'] & [= <- ->] & Hin).
    destruct (Henough k n Hin) as (cap & Hc & Hle). exists cap. split; [exact Hc|].
    intros m Hm'. destruct (H k) as [E|(st & Hg & Hl)]; [apply in_map_iff; exists (k, n); auto|lia|].
    destruct Hm as [_ Hinv]. assert (Ha := Hinv (c, k)). rewrite Hc in Ha. destruct Ha as (sta & Hg' & Hi).
    rewrite Hg in Hg'. injection Hg' as <-. rewrite (inv_after_last _ _ _ _ m Hi) by lia. lia.
  Qed.

  (** The search for any work: a fitting start which is the bound or the time of an event. *)
  Lemma find_min_start_any ind chain pt : 0 <= pt ->
    chain <> [] -> (forall x, In x chain -> snd x = map fst team) -> forallb fst chain = false ->
    exists r, find_min_start_time (m_tl s) c chain ind pt d (to_workers (kteam c team)) = Some r /\
      pt <= r /\ team_fits p h (kteam c team) r d /\ (r = pt \/ In r (all_times (m_tl s))).
  Proof.
    intros Hpt Hne Hall Hsv. unfold find_min_start_time. rewrite Hsv.
    destruct (lacks_workers_spec p h s c team Hm) as (b & Hb & Hbi).
    { intros k n Hin. destruct (Henough k n Hin) as (cap & -> & _). discriminate. }
    rewrite (chain_lacks_spec _ _ _ _ _ Hb chain Hne Hall).
    destruct b.
    { exfalso. destruct (proj1 Hbi eq_refl) as (k & n & cap & Hin & Hc & Hl).
      destruct (Henough k n Hin) as (cap' & Hc' & Hle). assert (cap' = cap) by congruence. lia. }
    destruct chain as [|[sv rq] rest]; [congruence|].
    assert (rq = map fst team) by (apply (Hall (sv, rq)); left; reflexivity). subst rq.
    assert (Hfuel : (queue_fuel (m_tl s) (map fst team) > laterl (all_times (m_tl s)) pt * (length (map fst team) + 1) + length (map fst team))%nat).
    { unfold queue_fuel. rewrite <- all_times_len. assert (Hl := later_all (all_times (m_tl s)) pt). nia. }
    destruct ind.
    - destruct (queue_spec (kind_slot (m_tl s) c (to_workers (kteam c team)) d true)
                feas_ind (all_times (m_tl s)) (map fst team) 0) with
        (K := length (map fst team)) (fuel := queue_fuel (m_tl s) (map fst team))
        (queue := map fst team) (sched := @nil nat) (start := pt) as (r & Hr & H1 & H2 & H3 & H4).
      + intros k st Hk Hst. apply kind_slot_ind; auto.
      + exact Hpt.
      + intros k Hk. rewrite app_nil_r in Hk. exact Hk.
      + intros k [].
      + simpl. lia.
      + exact Hfuel.
      + exists r. split; [exact Hr|]. split; [exact H1|]. rewrite app_nil_r in H2. split; [|exact H4].
        apply feas_ind_fits; [lia|exact H2].
    - destruct (queue_spec (kind_slot (m_tl s) c (to_workers (kteam c team)) d false)
                (feas_kind p h c team d) (all_times (m_tl s)) (map fst team) 0) with
        (K := length (map fst team)) (fuel := queue_fuel (m_tl s) (map fst team))
        (queue := map fst team) (sched := @nil nat) (start := pt) as (r & Hr & H1 & H2 & H3 & H4).
      + intros k st Hk Hst. apply kind_slot_spec; auto.
      + exact Hpt.
      + intros k Hk. rewrite app_nil_r in Hk. exact Hk.
      + intros k [].
      + simpl. lia.
      + exact Hfuel.
      + exists r. split; [exact Hr|]. split; [exact H1|]. rewrite app_nil_r in H2. split; [|exact H4].
        apply team_fits_feas; auto.
  Qed.
End Independent.

(** ** Event times *)

Lemma sl_add_in e l x : In x (sl_add e l) -> x = e \/ In x l.
Proof.
  unfold sl_add. intros H. apply in_app_or in H as [H|[H|H]].
  - right. rewrite <- (firstn_skipn (bisect_right (event_key e) l) l). apply in_or_app; auto.
  - left; auto.
  - right. rewrite <- (firstn_skipn (bisect_right (event_key e) l) l). apply in_or_app; auto.
Qed.
Lemma in_skipn_add {A} (y : A) : forall a b l, In y (skipn (a + b) l) -> In y (skipn b (skipn a l)).
Proof.
  induction a as [|a IH]; intros b l H; [exact H|]. destruct l as [|x l]; [destruct b; exact H|]. simpl in *. auto.
Qed.
Lemma update_state_times i st en w state state' x : update_state i st en w state = Some state' ->
  In x state' -> ev_time x = st \/ ev_time x = en \/ In (ev_time x) (map ev_time state).
Proof.
  unfold update_state. intros H Hx.
  set (si := bisect_right (time_key st) state) in *. set (ei := bisect_left (left_probe en) state) in *.
  destruct (py_nth state _) as [e0|]; [|discriminate].
  destruct (_ && _); [|discriminate].
  destruct (py_nth _ _) as [e1|] in H; [|discriminate]. injection H as <-.
  apply sl_add_in in Hx as [->|Hx]; [auto|]. apply sl_add_in in Hx as [->|Hx]; [auto|].
  right. right. assert (Hsub : forall y, In y (firstn si state ++ firstn (ei - si) (skipn si state) ++ skipn (si + (ei - si)) state) -> In y state).
  { intros y Hy. rewrite <- (firstn_skipn si state). apply in_or_app. apply in_app_or in Hy as [Hy|Hy]; [auto|right].
    rewrite <- (firstn_skipn (ei - si) (skipn si state)). apply in_or_app. apply in_app_or in Hy as [Hy|Hy]; [auto|right].
    apply in_skipn_add. exact Hy. }
  apply in_app_or in Hx as [Hx|Hx]; [apply in_map; apply Hsub; apply in_or_app; auto|].
  apply in_app_or in Hx as [Hx|Hx].
  - apply in_map_iff in Hx as (y & <- & Hy). simpl. apply in_map. apply Hsub. apply in_or_app. right. apply in_or_app. auto.
  - apply in_map; apply Hsub; apply in_or_app; right; apply in_or_app; auto.
Qed.
Lemma tl_set_times tl a st x : In x (all_times (tl_set tl a st)) -> In x (all_times tl) \/ In x (map ev_time st).
Proof.
  unfold all_times. induction tl as [|[b s0] r IH]; simpl; [auto|].
  destruct (agent_eqb b a); simpl; intros H; apply in_app_or in H as [H|H]; try (right; exact H).
  - left. apply in_or_app. auto.
  - left. apply in_or_app. auto.
  - destruct (IH H) as [H'|H']; [left; apply in_or_app; auto|auto].
Qed.
Lemma tl_get_times tl a st x : tl_get tl a = Some st -> In x (map ev_time st) -> In x (all_times tl).
Proof. intros Hg Hx. apply in_map_iff in Hx as (e & <- & He). eapply all_times_in; eauto. Qed.
Lemma update_team_times i st en : forall team tl tl' x, update_team i st en team tl = Some tl' ->
  In x (all_times tl') -> x = st \/ x = en \/ In x (all_times tl).
Proof.
  induction team as [|w r IH]; intros tl tl' x H Hx; simpl in H; [injection H as <-; auto|].
  destruct (tl_get tl (w_contractor w, w_kind w)) as [state|] eqn:Eg; [|discriminate].
  destruct (update_state i st en (w_count w) state) as [state'|] eqn:Eu; [|discriminate].
  destruct (IH _ _ _ H Hx) as [A|[A|A]]; auto.
  apply tl_set_times in A as [A|A]; [auto|].
  apply in_map_iff in A as (e & <- & He).
  destruct (update_state_times _ _ _ _ _ _ _ Eu He) as [B|[B|B]]; auto.
  right. right. eapply tl_get_times; eauto.
Qed.
Lemma update_timeline_times f d team s s' x : update_timeline f d team s = Some s' ->
  In x (all_times (m_tl s')) -> x = tsub f d \/ x = f \/ In x (all_times (m_tl s)).
Proof.
  unfold update_timeline. destruct (d =? 0); [intros [= <-]; auto|].
  destruct (update_team _ _ _ _ _) as [tl|] eqn:E; [|discriminate]. intros [= <-]. simpl.
  eapply update_team_times; eauto.
Qed.

(** ** Finish of a chain *)

Lemma chain_finish_le bound t U D : (forall n, bound n <= U) -> forall chain cur, (forall n, In n chain -> 0 <= t n <= D) -> cur <= U ->
  chain_finish bound t cur chain <= U + Z.of_nat (length chain) * D.
Proof.
  intros Hb.
  assert (G : forall chain cur V, (forall n, In n chain -> 0 <= t n <= D) -> U <= V -> cur <= V -> chain_finish bound t cur chain <= V + Z.of_nat (length chain) * D).
  { induction chain as [|n r IH]; intros cur V Ht HV Hc; cbn [chain_finish length]; [lia|].
    specialize (Hb n). assert (Htn := Ht n (or_introl eq_refl)). rewrite Nat2Z.inj_succ.
    assert (G := IH (Z.max cur (bound n) + t n) (V + D) (fun x Hx => Ht x (or_intror Hx)) ltac:(lia) ltac:(lia)). nia. }
  intros chain cur Ht Hc. apply G; [exact Ht|lia|lia].
Qed.
Lemma chain_finish_later bound t : (forall n, 0 <= t n) -> forall chain cur n, In n chain -> bound n <= chain_finish bound t cur chain.
Proof.
  intros Ht. induction chain as [|m r IH]; intros cur n H; simpl; [destruct H|].
  destruct H as [->|H]; [|apply IH; exact H].
  assert (G := chain_finish_ge bound t Ht r (Z.max cur (bound n) + t n)). specialize (Ht n). lia.
Qed.

Section Exact.
  Variables (g : graph) (est : nat -> list worker -> Z) (team : list worker).
  Hypothesis Hest : estimator_ok est.
  Variables (bound : nat -> Z) (base : Z).
  Hypothesis Hbound : forall n, - TIME_INF <= bound n <= TIME_INF.
  Hypothesis Hbase : 0 <= base <= TIME_INF.

  Lemma chain_exec_exact : forall chain exec e times, 0 <= exec <= TIME_INF ->
    chain_exec g est bound base team exec chain = (e, times) ->
    chain_finish bound (node_time g est team) (base + exec) chain <= TIME_INF ->
    base + e = chain_finish bound (node_time g est team) (base + exec) chain.
  Proof.
    assert (Ht : forall n, 0 <= node_time g est team n) by (intros n; destruct (node_time_ok g est team Hest n); lia).
    induction chain as [|n chain IH]; intros exec e times He H Hf; simpl in H.
    - injection H as <- <-. reflexivity.
    - set (t := match reqs_of g n with [] => 0 | _ => est n team end) in *.
      assert (Et : t = node_time g est team n) by reflexivity.
      set (lr := tsub (tsub (bound n) base) exec) in *.
      set (lag := if 0 <? lr then lr else 0) in *.
      assert (Ht0 := node_time_ok g est team Hest n). rewrite <- Et in Ht0.
      assert (Hlag : lag = Z.max 0 (bound n - base - exec)).
      { unfold lag, lr, tsub. specialize (Hbound n).
        destruct (set_time_cases (bound n - base)) as [[E1 R1]|[[R1 E1]|[R1 E1]]]; rewrite E1.
        - destruct (set_time_cases (bound n - base - exec)) as [[E2 R2]|[[R2 E2]|[R2 E2]]]; rewrite E2;
            match goal with |- context [0 <? ?x] => destruct (Z.ltb_spec 0 x) end; inf; lia.
        - lia.
        - destruct (set_time_cases (- TIME_INF - exec)) as [[E2 R2]|[[R2 E2]|[R2 E2]]]; rewrite E2;
            match goal with |- context [0 <? ?x] => destruct (Z.ltb_spec 0 x) end; inf; lia. }
      destruct (chain_exec g est bound base team (tadd exec (tadd lag t)) chain) as [e' l] eqn:E.
      injection H as <- <-. cbn [chain_finish] in *. rewrite <- Et in *.
      assert (Hge := chain_finish_ge bound (node_time g est team) Ht chain (Z.max (base + exec) (bound n) + t)).
      assert (Elt : tadd lag t = lag + t) by (unfold tadd; apply set_time_id; inf; lia).
      assert (Eex : tadd exec (tadd lag t) = exec + lag + t) by (rewrite Elt; unfold tadd; rewrite set_time_id; inf; lia).
      rewrite Eex in E.
      replace (Z.max (base + exec) (bound n) + t) with (base + (exec + lag + t)) in * by lia.
      apply (IH (exec + lag + t) e' l ltac:(lia) E Hf).
  Qed.
End Exact.

Lemma sd_get_in_weak sd n w : sd_get sd n = Some w -> In (n, w) sd.
Proof.
  induction sd as [|[m v] sd IH]; simpl; [discriminate|].
  destruct (Nat.eqb_spec m n); [intros [= <-]; subst; auto|auto].
Qed.
Lemma map_fst_combine {A B} (l : list A) (l' : list B) : length l' = length l -> map fst (combine l l') = l.
Proof. revert l'. induction l as [|x l IH]; intros [|y l'] H; simpl in *; try discriminate; [reflexivity|]. rewrite IH; auto. Qed.

Lemma team_for_of p ct s sw full rs tm : (forall k m, In (k, m) sw -> In (k, m) (sp_workers s)) ->
  Forall2 (fun r k => w_contractor k = ct_id ct /\ w_kind k = r_kind r /\ 0 <= w_count k /\
       exists cap, capacity p (ct_id ct, r_kind r) = Some cap /\
       count_ok sw full (Bd (r_kind r) (r_min r) (Z.min (r_max r) cap) cap) (w_count k)) rs tm ->
  team_for ct s rs tm.
Proof.
  intros Hs. unfold team_for. induction 1 as [|r k rs tm (W1 & W2 & W3 & cap & W4 & W5) _ IH]; constructor; [|exact IH].
  split; [exact W1|]. split; [exact W2|]. split; [exact W3|]. unfold count_ok in W5. cbn in W5.
  destruct (assoc_get sw (r_kind r)) as [x|] eqn:Ea; [|left; lia].
  destruct (full || (0 <? x)); [|left; lia]. subst x. right. apply Hs, assoc_get_in, Ea.
Qed.

(** ** One work with a given team *)
Section Moves.
  Variables (g : graph) (est : nat -> list worker -> Z) (p : pool) (apt D Lg : Z).
  Hypothesis Hest : estimator_ok est.
  Hypothesis Hreqs : forall n, reqs_ok (reqs_of g n).
  Hypothesis Hapt : 0 <= apt <= TIME_INF.
  Hypothesis HD : 0 <= D /\ True.
  Hypothesis HL : 0 <= Lg /\ forall e, In e (g_edges g) -> e_lag e <= Lg.
  Hypothesis Hservice : forall n, u_service (g_unit g n) = true -> reqs_of g n = [].
  Hypothesis Hshare : forall n c m, chain_of g n = Some c -> In m c ->
    map r_kind (reqs_of g m) = map r_kind (reqs_of g n).

  Definition mv_below (B : Z) (sd : sched) (s : mstate) : Prop :=
    apt <= B /\ (forall n w, In (n, w) sd -> sw_finish w <= B) /\ (forall x, In x (all_times (m_tl s)) -> x <= B).

  Lemma mv_bound_le B sd s n : mv_below B sd s -> B + Lg <= TIME_INF ->
    apt <= parent_bound g sd None apt n <= B + Lg /\ min_start_time g sd n <= parent_bound g sd None apt n.
  Proof.
    intros (H1 & H2 & _) Hinf. destruct (parent_bound_range g sd None apt n Hapt I) as [A1 A2].
    destruct HL as [HL0 HL1].
    split; [|exact A2]. split; [lia|]. unfold parent_bound. rewrite tmax_spec.
    assert (min_start_time g sd n <= B + Lg); [|lia].
    unfold min_start_time. destruct (max_default0_in (parent_times sd (edges_to g n))) as [->|E]; [lia|].
    apply parent_times_in in E as (e & w & He & Hw & ->). apply sd_get_in_weak in Hw. apply H2 in Hw.
    apply filter_In in He as [He _]. apply HL1 in He. unfold tadd. inf.
    destruct (set_time_cases (sw_finish w + e_lag e)) as [[-> ?]|[[? ->]|[? ->]]]; lia.
  Qed.

  Definition mv_nt (tm : list worker) := node_time g est tm.
  Definition mv_cfin (sd : sched) (tm : list worker) (cur : Z) (c : list nat) : Z :=
    chain_finish (parent_bound g sd None apt) (mv_nt tm) cur c.

  Lemma mv_nt_nonneg tm n : 0 <= mv_nt tm n.
  Proof. unfold mv_nt, node_time. destruct (reqs_of g n); [lia|]. apply Hest. Qed.
  Definition mv_estd (tm : list worker) (c : list nat) : Prop := forall m, In m c -> est m tm <= D.
  Lemma mv_nt_ok tm c n : mv_estd tm c -> In n c -> 0 <= mv_nt tm n <= D.
  Proof. intros H Hn. split; [apply mv_nt_nonneg|]. unfold mv_nt, node_time. destruct (reqs_of g n); [destruct HD; lia|]. apply H, Hn. Qed.

  Lemma mv_cfin_le B sd s tm cur c : mv_estd tm c -> mv_below B sd s -> B + Lg <= TIME_INF -> cur <= B + Lg ->
    cur <= mv_cfin sd tm cur c <= B + Lg + Z.of_nat (length c) * D.
  Proof.
    intros Hed HB Hinf Hc. unfold mv_cfin. split.
    - apply chain_finish_ge. intros n. apply mv_nt_nonneg.
    - apply chain_finish_le; auto; [|intros n; apply mv_nt_ok; exact Hed].
      intros n. apply (mv_bound_le B sd s n HB Hinf).
  Qed.

  (** What is known about a team of contractor [id] for the head [n]. *)
  Definition mv_team_good (id n : nat) (t : list (agent * Z)) : Prop :=
    (forall c, chain_of g n = Some c -> mv_estd (to_workers t) c) /\
    exists counts, t = team_of_contractor id (combine (map r_kind (reqs_of g n)) counts) /\
      length counts = length (reqs_of g n) /\ team_ok t /\
      (forall k m, In (k, m) (combine (map r_kind (reqs_of g n)) counts) -> exists cap, capacity p (id, k) = Some cap /\ m <= cap).

  Lemma mv_find_ok B sd s h id n t c ind : minv p h s -> mv_below B sd s -> mv_team_good id n t ->
    chain_of g n = Some c -> 2 * (B + Lg) + Z.of_nat (length c) * D < TIME_INF ->
    exists st ft times, momentum_find g est sd s n (to_workers t) ind None apt = Some (st, ft, times) /\
      parent_bound g sd None apt n <= st <= B + Lg /\ 0 <= ft <= 2 * (B + Lg) + Z.of_nat (length c) * D - apt /\
      (t = [] \/ team_fits p h t st (mv_cfin sd (to_workers t) (parent_bound g sd None apt n) c - parent_bound g sd None apt n)).
  Proof.
    intros Hm HB (Hed & counts & Et & Hlen & Htok & Hcap) Hc Hinf. specialize (Hed c Hc). assert (HB0 : apt <= B) by exact (proj1 HB). destruct HL as [HL0 _].
    destruct HD as [HD0 _].
    assert (HU : B + Lg <= TIME_INF) by nia.
    destruct (mv_bound_le B sd s n HB HU) as [Hb1 Hb2].
    unfold momentum_find. rewrite Hc.
    set (base := parent_bound g sd None apt n) in *.
    destruct (chain_exec g est (parent_bound g sd None apt) base (to_workers t) 0 c) as [exec tms] eqn:Ec.
    assert (Hcf := mv_cfin_le B sd s (to_workers t) base c Hed HB HU ltac:(lia)).
    assert (Hex : base + exec = mv_cfin sd (to_workers t) base c).
    { unfold mv_cfin. rewrite (chain_exec_exact g est (to_workers t) Hest (parent_bound g sd None apt) base) with (chain := c) (exec := 0) (times := tms).
      - replace (base + 0) with base by lia. reflexivity.
      - intros m. destruct (mv_bound_le B sd s m HB HU). inf. lia.
      - lia.
      - inf; lia.
      - exact Ec.
      - replace (base + 0) with base by lia. unfold mv_cfin, mv_nt in Hcf. nia. }
    destruct (to_workers t) as [|w tw] eqn:Etw.
    - exists base, base, tms. split; [reflexivity|]. split; [lia|]. split; [nia|]. left.
      destruct t; [reflexivity|discriminate].
    - assert (Hw : w_contractor w = id).
      { subst t. unfold team_of_contractor, to_workers in Etw. rewrite map_map in Etw.
        destruct (combine _ _); [discriminate|]. simpl in Etw. injection Etw as <- _. reflexivity. }
      rewrite Hw, <- Etw.
      assert (Hkt : map fst (combine (map r_kind (reqs_of g n)) counts) = map r_kind (reqs_of g n)).
      { apply map_fst_combine. rewrite map_length. exact Hlen. }
      destruct (find_min_start_any p h s id (combine (map r_kind (reqs_of g n)) counts) exec Hm) with
        (ind := ind) (chain := chain_kinds g c) (pt := base) as (r & R1 & R2 & R3 & R4).
      + rewrite Hkt. apply Hreqs.
      + lia.
      + exact Hcap.
      + lia.
      + destruct (chain_head _ _ _ Hc) as [r ->]. discriminate.
      + intros x Hx. unfold chain_kinds in Hx. apply in_map_iff in Hx as (m & <- & Hm'). simpl.
        rewrite Hkt. eapply Hshare; eauto.
      + destruct (chain_head _ _ _ Hc) as [r ->]. simpl.
        destruct (u_service (g_unit g n)) eqn:Eu; [|reflexivity]. apply Hservice in Eu.
        exfalso. subst t. rewrite Eu in Etw. simpl in Etw. discriminate.
      + rewrite <- Et in R1, R3. rewrite R1.
        assert (HrU : r <= B + Lg). { destruct R4 as [->|R4]; [lia|]. destruct HB as (_ & _ & HB'). apply HB' in R4. lia. }
        assert (Hfin : r + exec <= 2 * (B + Lg) + Z.of_nat (length c) * D - apt) by lia.
        rewrite (validate_fits p h s t r exec Hm); [|lia|lia|lia|exact R3].
        exists r, (tadd r exec), tms. rewrite tadd_exact by lia.
        split; [reflexivity|]. split; [lia|]. split; [lia|]. right.
        rewrite Etw. replace (mv_cfin sd (w :: tw) base c - base) with exec by lia. exact R3.
  Qed.

  Lemma mv_schedule_ok B sd s h id n t c sp st : minv p h s -> m_index s < TIME_INF -> mv_below B sd s -> mv_team_good id n t ->
    chain_of g n = Some c -> 2 * (B + Lg) + Z.of_nat (length c) * D < TIME_INF -> sp_time sp = None ->
    parent_bound g sd None apt n <= st <= B + Lg ->
    (t = [] \/ team_fits p h t st (mv_cfin sd (to_workers t) (parent_bound g sd None apt n) c - parent_bound g sd None apt n)) ->
    exists sd' s', momentum_schedule g est sd s n (to_workers t) id sp (Some st) apt = Some (sd', s') /\
      mv_below (B + Lg + Z.of_nat (length c) * D) sd' s'.
  Proof.
    intros Hm Hidx HB (Hed & counts & Et & Hlen & Htok & Hcap) Hc Hinf Hsp Hst Hfits. specialize (Hed c Hc). destruct HL as [HL0 _]. destruct HD as [HD0 _].
    assert (HB0 : apt <= B) by exact (proj1 HB).
    assert (HU : B + Lg <= TIME_INF) by nia.
    destruct (mv_bound_le B sd s n HB HU) as [Hb1 Hb2].
    set (base := parent_bound g sd None apt n) in *.
    assert (Hpb : parent_bound g sd (Some st) apt n = st).
    { unfold base, parent_bound in *. rewrite !tmax_spec in *. lia. }
    assert (Hbb : forall m, parent_bound g sd (Some st) apt m = Z.max (parent_bound g sd None apt m) st).
    { intros m. unfold parent_bound. rewrite !tmax_spec. lia. }
    destruct (chain_exec g est (parent_bound g sd (Some st) apt) st (to_workers t) 0 c) as [exec tms] eqn:Ec.
    assert (Hcf := mv_cfin_le B sd s (to_workers t) st c Hed HB HU ltac:(lia)).
    assert (Hnt0 : forall m, 0 <= node_time g est (to_workers t) m) by (intros m; apply (mv_nt_nonneg (to_workers t) m)).
    assert (Hbr : forall m, - TIME_INF <= parent_bound g sd (Some st) apt m <= TIME_INF).
    { intros m. rewrite Hbb. destruct (mv_bound_le B sd s m HB HU). inf. lia. }
    assert (Hext : chain_finish (parent_bound g sd (Some st) apt) (node_time g est (to_workers t)) st c = mv_cfin sd (to_workers t) st c).
    { unfold mv_cfin. apply chain_finish_ext; [|exact Hnt0]. intros m _. rewrite Hbb. lia. }
    assert (Hex : st + exec = mv_cfin sd (to_workers t) st c).
    { rewrite (chain_exec_exact g est (to_workers t) Hest (parent_bound g sd (Some st) apt) st Hbr ltac:(lia) c 0 exec tms ltac:(inf; lia) Ec).
      - replace (st + 0) with st by lia. exact Hext.
      - replace (st + 0) with st by lia. rewrite Hext. nia. }
    assert (Hlip : mv_cfin sd (to_workers t) st c <= mv_cfin sd (to_workers t) base c + (st - base)).
    { unfold mv_cfin. replace st with (base + (st - base)) at 1 by lia. apply chain_finish_lip. lia. }
    assert (Hcfb := mv_cfin_le B sd s (to_workers t) base c Hed HB HU ltac:(lia)).
    set (d := mv_cfin sd (to_workers t) base c - base) in *.
    assert (Hfits' : t = [] \/ team_fits p h t st exec).
    { destruct Hfits as [?|F]; [auto|]. right. intros a m Hin. destruct (F a m Hin) as (cap & Hcp & F').
      exists cap. split; [exact Hcp|]. eapply fits_shorter; [|exact F']. lia. }
    assert (Hfind : exists ft, momentum_find g est sd s n (to_workers t) (sp_independent sp) (Some st) apt = Some (st, ft, tms)).
    { unfold momentum_find. rewrite Hc, Hpb, Ec. destruct Hfits' as [->|F]; [eexists; reflexivity|].
      destruct (to_workers t) as [|w tw] eqn:Etw; [eexists; reflexivity|]. rewrite <- Etw in *.
      rewrite (validate_fits p h s t st exec Hm); [eexists; reflexivity|lia|lia|nia|exact F]. }
    destruct Hfind as [ft Hfind]. unfold momentum_schedule. rewrite Hc, Hfind, Hsp.
    destruct (place_chain (to_workers t) id st c tms sd) as [fin sd1] eqn:Ep.
    destruct (chain_place_bound g est (to_workers t) Hest (parent_bound g sd (Some st) apt) st Hbr ltac:(lia)
      c 0 exec tms id st sd fin sd1 ltac:(inf; lia) Ec ltac:(lia) Ep) as [Hfin _].
    assert (Hfin' : fin = st + exec) by nia.
    destruct (chain_exec_shape g est (to_workers t) Hest (parent_bound g sd (Some st) apt) st c 0 exec tms
             ltac:(inf; lia) Ec) as (L1 & L2 & L3 & _).
    assert (HstI : st <= TIME_INF) by lia.
    destruct (place_shape _ _ _ _ _ _ _ _ L1 L2 HstI Ep) as (new & N1 & N2 & N3).
    rewrite tsub_exact by nia. replace (fin - st) with exec by lia.
    destruct (update_timeline_spec p h s fin exec t Hm Hidx ltac:(lia) ltac:(nia) Htok) as [U _].
    destruct U as [s' U].
    { destruct Hfits' as [->|F]; [right; intros a m []|]. right. replace (fin - exec) with st by lia. exact F. }
    rewrite U. exists sd1, s'. split; [reflexivity|].
    destruct HB as (_ & HB1 & HB2). split; [nia|]. split.
    - intros m w Hin. rewrite N1 in Hin. apply in_app_or in Hin as [Hin|Hin].
      + apply in_rev in Hin. destruct (consecutive_in _ _ _ _ _ _ _ N3 Hin) as (_ & Q & _). lia.
      + apply HB1 in Hin. nia.
    - intros x Hx. apply (update_timeline_times _ _ _ _ _ _ U) in Hx.
      rewrite tsub_exact in Hx by nia. destruct Hx as [->|[->|Hx]]; [lia|lia|]. apply HB2 in Hx. nia.
  Qed.

End Moves.

Section Safe.
  Variables (g : graph) (est : nat -> list worker -> Z)
    (optimize : nat -> nat -> sched -> mstate -> list border -> option (list bool) -> list Z -> option (list Z))
    (cs : list contractor) (spec : nat -> work_spec) (apt D Lg : Z).
  Hypothesis Hcs : contractors_ok cs.
  Hypothesis Hest : estimator_ok est.
  Hypothesis Hopt : forall n c sd s, optimizer_ok (optimize n c sd s).
  Hypothesis Hans : optimizer_answers (momentum_times g est) optimize (reqs_of g) cs spec apt.
  Hypothesis Hreqs : forall n, reqs_ok (reqs_of g n).
  Hypothesis Hspec : forall n, spec_ok (spec n).
  Hypothesis Hapt : 0 <= apt <= TIME_INF.
  Hypothesis Hvol : forall n, 0 <= volume_of g n.
  Hypothesis HD : 0 <= D /\ estimates_bounded g est cs spec D.
  Hypothesis HL : 0 <= Lg /\ forall e, In e (g_edges g) -> e_lag e <= Lg.
  Hypothesis Hnotime : forall n, sp_time (spec n) = None.
  Hypothesis Hfit : forall n, spec_fits cs (reqs_of g n) (spec n).
  Hypothesis Hservice : forall n, u_service (g_unit g n) = true -> reqs_of g n = [].
  Hypothesis Hshare : forall n c m, chain_of g n = Some c -> In m c ->
    map r_kind (reqs_of g m) = map r_kind (reqs_of g n).

  Let mfind := momentum_times g est.
  Let step := build_step mstate mfind (momentum_schedule g est) (reqs_of g) optimize cs spec.
  Let loop := build_loop mstate mfind (momentum_schedule g est) (reqs_of g) optimize cs spec.
  Let p := pool_of cs.

  Local Notation below := (mv_below apt).
  Local Notation team_good := (mv_team_good g est p D).
  Local Notation cfin := (mv_cfin g est apt).
  Let HDt : 0 <= D /\ True := conj (proj1 HD) I.

  Lemma enabled_cases n ct : In ct (filter_contractors (spec n) cs) ->
    In ct cs /\ (sp_contractors (spec n) = [] \/ In (ct_id ct) (sp_contractors (spec n))).
  Proof.
    unfold filter_contractors. intros H. apply filter_In in H as [H1 H2]. split; [exact H1|].
    unfold contractor_enabled in H2. destruct (sp_contractors (spec n)) as [|x l]; [auto|].
    right. apply existsb_exists in H2 as (y & Hy & Hey). apply Nat.eqb_eq in Hey. subst y. exact Hy.
  Qed.

  Lemma borders_able ct n : In ct cs -> (get_worker_borders p (ct_id ct) (reqs_of g n) = None -> ~ able ct (reqs_of g n)).
  Proof.
    intros Hct H Hable. apply borders_none in H as (r & Hr & Hc). destruct (Hable r Hr) as (m & Hm & Hle).
    unfold p in Hc. rewrite (capacity_pool cs ct (r_kind r) m Hcs Hct Hm) in Hc. lia.
  Qed.

  Lemma spec_total n ct bs f : In ct cs -> get_worker_borders p (ct_id ct) (reqs_of g n) = Some bs ->
    (length (sp_workers (spec n)) <> length bs -> optimize_using_spec (sp_workers (spec n)) (map bd_kind bs) (map bd_count bs) f <> None) ->
    optimize_using_spec (sp_workers (spec n)) (map bd_kind bs) (map bd_count bs) f <> None.
  Proof.
    intros Hct Hb Hf. apply borders_spec in Hb. assert (Hl := Forall2_len _ _ _ Hb).
    revert Hf. unfold optimize_using_spec. rewrite map_length. destruct (Nat.eqb_spec (length (sp_workers (spec n))) (length bs)) as [E|E].
    - intros _. destruct (all_spec_counts_total (sp_workers (spec n)) (map bd_kind bs)) as [l ->]; [|discriminate].
      intros k Hk. destruct (Hfit n) as [_ H]. specialize (H ltac:(lia)).
      assert (Hin : In k (map fst (sp_workers (spec n)))).
      { clear -Hb Hk H. induction Hb as [|r b rs bs' Hrb Hb IH]; simpl in Hk; [destruct Hk|].
        destruct Hk as [<-|Hk]; [|apply IH; auto; intros r' Hr'; apply H; right; exact Hr'].
        destruct Hrb as [-> _]. apply H. left. reflexivity. }
      clear -Hin. induction (sp_workers (spec n)) as [|[k' m] l IH]; simpl in *; [destruct Hin|].
      destruct (Nat.eqb_spec k' k); [discriminate|]. destruct Hin; [congruence|auto].
    - intros Hf. exact (Hf E).
  Qed.

  Lemma runner_ok B sd s h n c ct : minv p h s -> below B sd s -> In ct (filter_contractors (spec n) cs) ->
    chain_of g n = Some c -> 2 * (B + Lg) + Z.of_nat (length c) * D < TIME_INF ->
    exists st ft tm, run_with_contractor mstate mfind (reqs_of g) optimize cs spec sd s n apt ct = Done (st, ft, tm) /\ ((get_worker_borders p (ct_id ct) (reqs_of g n) = None /\ ft = TIME_INF) \/
       exists t, tm = to_workers t /\ team_good (ct_id ct) n t /\
         parent_bound g sd None apt n <= st <= B + Lg /\ 0 <= ft <= 2 * (B + Lg) + Z.of_nat (length c) * D - apt /\
         (t = [] \/ team_fits p h t st (cfin sd (to_workers t) (parent_bound g sd None apt n) c - parent_bound g sd None apt n))).
  Proof.
    intros Hm HB Hct Hc Hinf. apply enabled_cases in Hct as [Hct Hen].
    unfold run_with_contractor. fold p. destruct (get_worker_borders p (ct_id ct) (reqs_of g n)) as [bs|] eqn:Eb.
    2: { do 3 eexists. split; [reflexivity|]. left. split; reflexivity. }
    destruct (optimize_using_spec _ _ _ _) as [counts|] eqn:Eo.
    2: { exfalso. revert Eo. apply spec_total with (ct := ct); [exact Hct|exact Eb|]. intros Hne.
         apply (Hans n (ct_id ct) sd s bs Eb Hne). intros counts Hw.
         assert (HC : Forall2 (count_ok [] false) bs counts) by (unfold count_ok; exact Hw).
         destruct (counted_team p (reqs_of g n) [] false (ct_id ct) bs counts (Hreqs n) ltac:(intros k m []) Eb HC) as (t & T1 & T2 & T3 & T4 & T5).
         unfold team_of_counts. set (tm := map (fun kc => Wk _ _ _) _) in *.
         assert (Hgood : team_good (ct_id ct) n t).
         { split.
           { intros c' Hc' m Hm'. rewrite <- T1. eapply (proj2 HD); [exact Hc'|exact Hm'|exact Hct|].
             apply (team_for_of p ct (spec n) [] false); [intros k x []|exact T5]. }
           exists (map w_count tm). split; [exact T3|]. split; [exact T4|]. split; [exact T2|].
           intros k m Hin. clear -T5 Hin. revert T5 Hin.
           generalize tm. induction (reqs_of g n) as [|r rs IH]; intros tm0 T5 Hin; [destruct Hin|].
           inversion T5 as [|? w ? tm1 (W1 & W2 & W3 & cap & W4 & W5) T5']; subst. simpl in Hin.
           destruct Hin as [[= <- <-]|Hin]; [|eapply IH; eauto].
           exists cap. split; [exact W4|]. cbn in W5. lia. }
         destruct (mv_find_ok g est p apt D Lg Hest Hreqs Hapt HDt HL Hservice Hshare B sd s h (ct_id ct) n t c (sp_independent (spec n)) Hm HB Hgood Hc Hinf) as (st & ft & times & F1 & _).
         unfold momentum_times. rewrite T1, F1. discriminate. }
    destruct (chosen_team _ _ _ _ _ _ _ (Hopt n (ct_id ct) sd s) (Hreqs n) (proj1 (Hspec n)) Eb Eo) as (t & T1 & T2 & T3 & T4 & T5).
    set (tm := map (fun kc => Wk _ _ _) _) in *.
    assert (Hgood : team_good (ct_id ct) n t).
    { split.
      { intros c' Hc' m Hm'. rewrite <- T1. eapply (proj2 HD); [exact Hc'|exact Hm'|exact Hct|].
        eapply team_for_of; [|exact T5]. auto. }
      exists (map w_count tm). split; [exact T3|]. split; [exact T4|]. split; [exact T2|].
      intros k m Hin. clear -T5 Hin Hct Hen Hfit Hcs. destruct (Hfit n) as [Hf _].
      fold p in T5. revert T5 Hin. generalize (Nat.eqb (length (sp_workers (spec n))) (length (reqs_of g n))) as full.
      generalize tm. induction (reqs_of g n) as [|r rs IH]; intros tm0 full T5 Hin; [destruct Hin|].
      inversion T5 as [|? w ? tm1 (W1 & W2 & W3 & cap & W4 & W5) T5']; subst. simpl in Hin.
      destruct Hin as [[= <- <-]|Hin]; [|eapply IH; eauto].
      exists cap. split; [exact W4|]. unfold count_ok in W5. simpl in W5.
      destruct (assoc_get (sp_workers (spec n)) (r_kind r)) as [x|] eqn:Ea; [|lia].
      destruct (_ || _); [|lia]. subst x. apply assoc_get_in in Ea.
      destruct (capacity_pool_inv _ _ _ _ W4) as (ct' & C1 & C2 & C3).
      eapply Hf; [exact C1| |exact Ea|exact C3]. rewrite C2. exact Hen. }
    destruct (mv_find_ok g est p apt D Lg Hest Hreqs Hapt HDt HL Hservice Hshare B sd s h (ct_id ct) n t c (sp_independent (spec n)) Hm HB Hgood Hc Hinf) as (st & ft & times & F1 & F2 & F3 & F4).
    unfold mfind, momentum_times. rewrite T1, F1. do 3 eexists. split; [reflexivity|]. right. exists t. auto 8.
  Qed.

  Lemma step_safe B is_first is_last sd s h n c : minv p h s -> m_index s < TIME_INF -> below B sd s ->
    (is_first = true -> sd = [] /\ (h = [] \/ reqs_of g n = [])) ->
    chain_of g n = Some c -> 2 * (B + Lg) + Z.of_nat (length c) * D < TIME_INF ->
    match step is_first is_last apt n sd s with
    | Crash => False
    | NoContractor => forall ct, In ct cs -> (sp_contractors (spec n) = [] \/ In (ct_id ct) (sp_contractors (spec n))) ->
                        ~ able ct (reqs_of g n)
    | Done (sd', s') => below (B + Lg + Z.of_nat (length c) * D) sd' s'
    end.
  Proof.
    intros Hm Hidx HB Hfirst Hc Hinf.
    assert (HR : forall ct, In ct (filter_contractors (spec n) cs) -> exists r,
              run_with_contractor mstate mfind (reqs_of g) optimize cs spec sd s n apt ct = Done r).
    { intros ct Hct. destruct (runner_ok B sd s h n c ct Hm HB Hct Hc Hinf) as (st & ft & tm & R & _). eauto. }
    assert (HRg : forall c0 st0 ft0 tm0, run_with_contractor mstate mfind (reqs_of g) optimize cs spec sd s n apt c0 = Done (st0, ft0, tm0) ->
              - TIME_INF <= ft0 <= TIME_INF).
    { intros c0 st0 ft0 tm0. unfold mfind. eapply runner_range; eauto. }
    assert (HB0 : apt <= B) by exact (proj1 HB). assert (HL0 := proj1 HL). assert (HD0 := proj1 HD).
    unfold step, build_step.
    destruct (run_contractor_search _ cs (spec n)) as [[[[st ft] ct] team]| |] eqn:Es.
    - apply contractor_search_best in Es; [|exact HRg]. destruct Es as (Ein & Er & Eft & _).
      destruct (runner_ok B sd s h n c ct Hm HB Ein Hc Hinf) as (st' & ft' & tm' & R & R').
      rewrite R in Er. injection Er as -> -> ->.
      destruct R' as [[_ ->]|(t & -> & Hg & R1 & R2 & R3)]; [discriminate|].
      set (st1 := if is_first then apt else st).
      assert (H1 : parent_bound g sd None apt n <= st1 <= B + Lg /\
        (t = [] \/ team_fits p h t st1 (cfin sd (to_workers t) (parent_bound g sd None apt n) c - parent_bound g sd None apt n))).
      { unfold st1. destruct is_first; [|auto]. destruct (Hfirst eq_refl) as [-> Hh]. split.
        - unfold parent_bound. rewrite min_start_nil, tmax_spec. lia.
        - destruct Hh as [->|E0]; [|left; destruct Hg as (_ & counts & Et & _); rewrite Et, E0; reflexivity].
          right. intros a m Hin. destruct Hg as (_ & counts & Et & _ & _ & Hcap). rewrite Et in Hin.
          apply in_map_iff in Hin as ([k m'] & [= <- ->] & Hin). destruct (Hcap k m Hin) as (cap & C1 & C2).
          exists cap. split; [exact C1|]. intros x _. simpl. lia. }
      destruct H1 as [H1 H2].
      assert (E2 : (if is_last then tmax st1 0 else st1) = st1).
      { destruct is_last; [|reflexivity]. rewrite tmax_spec. destruct (parent_bound_range g sd None apt n Hapt I). lia. }
      rewrite E2.
      destruct (mv_schedule_ok g est p apt D Lg Hest Hreqs Hapt HDt HL Hservice Hshare B sd s h (ct_id ct) n t c (spec n) st1 Hm Hidx HB Hg Hc Hinf (Hnotime n) H1 H2) as (sd' & s' & S1 & S2).
      rewrite S1. exact S2.
    - intros ct Hct Hen. assert (Hf : In ct (filter_contractors (spec n) cs)).
      { unfold filter_contractors. apply filter_In. split; [exact Hct|]. unfold contractor_enabled.
        destruct (sp_contractors (spec n)) as [|x l] eqn:El; [reflexivity|].
        destruct Hen as [Hen|Hen]; [discriminate|]. apply existsb_exists. exists (ct_id ct). split; [exact Hen|apply Nat.eqb_refl]. }
      destruct (runner_ok B sd s h n c ct Hm HB Hf Hc Hinf) as (st & ft & tm & R & R').
      destruct R' as [[Hnone _]|(t & -> & Hg & R1 & R2 & R3)]; [apply borders_able; assumption|].
      exfalso. destruct (contractor_search_exists _ _ HRg cs (spec n) HR) as [r Hr]; [|congruence].
      exists ct, st, ft, (to_workers t). split; [exact Hf|]. split; [exact R|]. unfold is_inf. inf.
      assert (ft < TIME_INF) by nia. lia.
    - eapply contractor_search_not_crash; eauto.
  Qed.

  Lemma below_mono B B' sd s : B <= B' -> below B sd s -> below B' sd s.
  Proof.
    intros H (H1 & H2 & H3). split; [lia|]. split; [intros n w Hin; apply H2 in Hin; lia|intros x Hx; apply H3 in Hx; lia].
  Qed.

  Lemma loop_safe_from i0 B0 : apt <= B0 -> forall nodes is_first chains rest sd s h,
    tinv0 (i0 := i0) g (pool_of cs) (staffed g cs spec) spec chains sd s h ->
    (is_first = true -> sd = [] /\ (h = [] \/ forall n, hd_error nodes = Some n -> reqs_of g n = [])) ->
    below (B0 + Z.of_nat (length (concat chains)) * (D + Lg)) sd s ->
    chains_of g nodes = Some rest ->
    i0 + Z.of_nat (length (chains ++ rest)) < TIME_INF ->
    2 * (B0 + Z.of_nat (length (concat (chains ++ rest))) * (D + Lg)) < TIME_INF ->
    NoDup (concat (chains ++ rest)) ->
    (forall e, In e (g_edges g) -> In (e_from e) (concat (chains ++ rest)) -> In (e_to e) (concat (chains ++ rest)) ->
       comes_before (concat (chains ++ rest)) (e_from e) (e_to e)) ->
    match loop is_first apt nodes sd s with
    | Crash => False
    | NoContractor => exists n, In n nodes /\
         forall ct, In ct cs -> (sp_contractors (spec n) = [] \/ In (ct_id ct) (sp_contractors (spec n))) ->
                    ~ able ct (reqs_of g n)
    | Done (sd', s') => below (B0 + Z.of_nat (length (concat (chains ++ rest))) * (D + Lg)) sd' s'
    end.
  Proof.
    intros HB0. induction nodes as [|n nodes IH]; intros is_first chains rest sd s h HI Hf HB Hch Hlen Hinf Hnd Htopo.
    { cbn [chains_of] in Hch. injection Hch as <-. rewrite app_nil_r. exact HB. }
    cbn [chains_of] in Hch. destruct (chain_of g n) as [c|] eqn:Ec; [|discriminate].
    destruct (chains_of g nodes) as [rest'|] eqn:Er; [|discriminate]. injection Hch as <-.
    unfold loop. cbn [build_loop]. fold loop. fold step.
    assert (Eapp : chains ++ c :: rest' = (chains ++ [c]) ++ rest') by (rewrite <- app_assoc; reflexivity).
    rewrite Eapp in *.
    assert (Hlc : (1 <= length c)%nat) by (destruct (chain_head _ _ _ Ec) as [r ->]; simpl; lia).
    assert (Hcat : length (concat (chains ++ [c])) = (length (concat chains) + length c)%nat).
    { rewrite concat_app, app_length. simpl. rewrite app_nil_r. reflexivity. }
    set (is_last := match nodes with [] => true | _ => false end).
    assert (Hs := step_safe (B0 + Z.of_nat (length (concat chains)) * (D + Lg)) is_first is_last sd s h n c).
    assert (HL0 := proj1 HL). assert (HL1 := proj2 HL). assert (HD0 := proj1 HD). assert (HD1 := proj2 HD).
    assert (Hle : Z.of_nat (length (concat (chains ++ [c]))) <= Z.of_nat (length (concat ((chains ++ [c]) ++ rest')))).
    { rewrite (concat_app (chains ++ [c])), app_length. lia. }
    assert (Hs' : match step is_first is_last apt n sd s with
    | Crash => False
    | NoContractor => forall ct, In ct cs -> (sp_contractors (spec n) = [] \/ In (ct_id ct) (sp_contractors (spec n))) ->
                        ~ able ct (reqs_of g n)
    | Done (sd', s') => below (B0 + Z.of_nat (length (concat chains)) * (D + Lg) + Lg + Z.of_nat (length c) * D) sd' s'
    end).
    { apply Hs; auto.
      - apply (i_minv _ _ _ _ _ _ _ _ HI).
      - assert (Hx := i_idx _ _ _ _ _ _ _ _ HI). rewrite !app_length in Hlen. simpl in Hlen. lia.
      - intros E. destruct (Hf E) as [A [A'|A']]; auto.
      - rewrite Hcat in Hle. nia. }
    clear Hs. destruct (step is_first is_last apt n sd s) as [[sd1 s1]| |] eqn:Es.
    - assert (HI1 : exists h1, tinv0 (i0 := i0) g (pool_of cs) (staffed g cs spec) spec (chains ++ [c]) sd1 s1 h1).
      { cut (exists h1, tinv0 (i0 := i0) g (pool_of cs) (staffed g cs spec) spec (chains ++ [c]) sd1 s1 h1 /\ covered sd h sd1 h1 /\
          (forall m w, In (m, w) sd1 -> In (m, w) sd \/ apt <= sw_start w)); [intros (h1 & A & _); eauto|].
        eapply step_inv_from; [exact Hcs|exact Hest|exact Hopt|exact Hreqs|exact Hvol|exact Hspec|exact Hapt|exact HI| | |exact Ec| | |exact Es].
        - intros E; apply Hf in E; tauto.
        - rewrite !app_length in Hlen. simpl in Hlen. lia.
        - rewrite concat_app in Hnd. eapply nodup_app_l. exact Hnd.
        - intros e He H1 H2. rewrite concat_app in Hnd, Htopo. eapply comes_before_prefix; [exact Hnd| |exact H2].
          apply Htopo; [exact He|apply in_or_app; left; exact H1|apply in_or_app; left; exact H2]. }
      destruct HI1 as [h1 HI1].
      assert (R := IH false (chains ++ [c]) rest' sd1 s1 h1 HI1 ltac:(discriminate)).
      assert (HB1 : below (B0 + Z.of_nat (length (concat (chains ++ [c]))) * (D + Lg)) sd1 s1).
      { eapply below_mono; [|exact Hs']. rewrite Hcat. nia. }
      specialize (R HB1 eq_refl Hlen Hinf Hnd Htopo).
      destruct (loop false apt nodes sd1 s1); [exact R| |exact R].
      destruct R as (m & Hm & R). exists m. split; [right; exact Hm|exact R].
    - exists n. split; [left; reflexivity|exact Hs'].
    - exact Hs'.
  Qed.

  Lemma loop_safe : forall nodes is_first chains rest sd s h,
    sinv g cs spec chains sd s h -> (is_first = true -> sd = [] /\ h = []) ->
    below (apt + Z.of_nat (length (concat chains)) * (D + Lg)) sd s ->
    chains_of g nodes = Some rest ->
    Z.of_nat (length (chains ++ rest)) < TIME_INF ->
    2 * (apt + Z.of_nat (length (concat (chains ++ rest))) * (D + Lg)) < TIME_INF ->
    NoDup (concat (chains ++ rest)) ->
    (forall e, In e (g_edges g) -> In (e_from e) (concat (chains ++ rest)) -> In (e_to e) (concat (chains ++ rest)) ->
       comes_before (concat (chains ++ rest)) (e_from e) (e_to e)) ->
    match loop is_first apt nodes sd s with
    | Crash => False
    | NoContractor => exists n, In n nodes /\
         forall ct, In ct cs -> (sp_contractors (spec n) = [] \/ In (ct_id ct) (sp_contractors (spec n))) ->
                    ~ able ct (reqs_of g n)
    | Done _ => True
    end.
  Proof.
    intros nodes is_first chains rest sd s h HI Hf HB Hch Hlen Hinf Hnd Htopo.
    assert (H := loop_safe_from 0 apt (Z.le_refl _) nodes is_first chains rest sd s h HI
      (fun E => match Hf E with conj A B => conj A (or_introl B) end) HB Hch Hlen Hinf Hnd Htopo).
    destruct (loop is_first apt nodes sd s); auto.
  Qed.
End Safe.

Lemma build_never_crashes : forall g est optimize cs spec apt D Lg nodes chains,
    contractors_ok cs -> estimator_ok est ->
    (forall n c sd s, optimizer_ok (optimize n c sd s)) ->
    optimizer_answers (momentum_times g est) optimize (reqs_of g) cs spec apt ->
    (forall n, reqs_ok (reqs_of g n)) -> (forall n, 0 <= volume_of g n) -> (forall n, spec_ok (spec n)) ->
    0 <= apt <= TIME_INF ->
    chains_of g nodes = Some chains -> NoDup (concat chains) ->
    (forall e, In e (g_edges g) -> In (e_from e) (concat chains) -> In (e_to e) (concat chains) ->
       comes_before (concat chains) (e_from e) (e_to e)) ->
    (0 <= D /\ estimates_bounded g est cs spec D) -> (0 <= Lg /\ forall e, In e (g_edges g) -> e_lag e <= Lg) ->
    2 * (apt + Z.of_nat (length (concat chains)) * (D + Lg)) < TIME_INF -> Z.of_nat (length nodes) < TIME_INF ->
    (forall n, sp_time (spec n) = None) -> (forall n, spec_fits cs (reqs_of g n) (spec n)) ->
    (forall n, u_service (g_unit g n) = true -> reqs_of g n = []) ->
    (forall n c m, chain_of g n = Some c -> In m c -> map r_kind (reqs_of g m) = map r_kind (reqs_of g n)) ->
    match momentum_build g est optimize cs spec apt nodes with
    | Crash => False
    | NoContractor => exists n, In n nodes /\
         forall ct, In ct cs -> (sp_contractors (spec n) = [] \/ In (ct_id ct) (sp_contractors (spec n))) ->
                    ~ able ct (reqs_of g n)
    | Done _ => True
    end.
Proof.
  intros g est optimize cs spec apt D Lg nodes chains Hcs Hest Hopt Hans Hreqs Hvol Hspec Hapt Hch Hnd Htopo HD HL Hinf Hlen Hnt Hfit Hsv Hsh.
  unfold momentum_build.
  apply (loop_safe g est optimize cs spec apt D Lg Hcs Hest Hopt Hans Hreqs Hspec Hapt Hvol HD HL Hnt Hfit Hsv Hsh nodes true [] chains [] _ []); auto.
  - apply sinv_init. exact Hcs.
  - split; [simpl; lia|]. split; [intros n w []|]. intros x Hx. simpl.
    assert (x = 0); [|lia]. unfold momentum_init in Hx. simpl in Hx. unfold all_times in Hx.
    rewrite map_map in Hx. simpl in Hx. apply in_concat in Hx as (l & Hl & Hx).
    apply in_map_iff in Hl as (y & <- & _). destruct Hx as [<-|[]]. reflexivity.
  - simpl. rewrite (chains_of_length _ _ _ Hch). exact Hlen.
Qed.
