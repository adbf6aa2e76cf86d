(** One block scheduled on a timeline that already carries the bookings of other blocks. *)
From Coq Require Import ZArith List Bool Lia Arith Relations Permutation ZifyBool ZifyNat.
From Verif Require Import TimeModel MomentumModel JITModel MomentumSpec MomentumHistory MomentumTeamProofs JITHistory JITProofs GraphModel
  ScheduleModel ScheduleSpec ContractorProofs TeamProofs ContractorTheorems SchedulePoolProofs
  ScheduleProofs ScheduleInv JitScheduleInv ScheduleTheorems JitScheduleTheorems Digraph StableSort TopoModel TopoProofs TopoTheorems HeadModel HeadProofs
  HeadTheorems PriorityModel PriorityTheorems TraverseModel ValidationModel ValidationProofs ValidationTheorems OrderModel OrderTheorems PipelineModel PipelineTheorems
  MultiAgentModel BlockSchedModel.
Import ListNotations.
Local Open Scope Z_scope.

Lemma sb_perm l1 l2 a t : Permutation l1 l2 -> busy (schedule_bookings l1) a t = busy (schedule_bookings l2) a t.
Proof.
  induction 1 as [|x l l' _ IH|x y l|l l' l'' _ IH1 _ IH2]; [reflexivity| | |congruence].
  - change (x :: l) with ([x] ++ l). change (x :: l') with ([x] ++ l'). rewrite !sb_app, !busy_app. lia.
  - change (y :: x :: l) with ([y] ++ [x] ++ l). change (x :: y :: l) with ([x] ++ [y] ++ l). rewrite !sb_app, !busy_app. lia.
Qed.
Lemma feasible_perm g cs spec nodes sd sd' : Permutation sd' sd -> feasible g cs spec nodes sd -> feasible g cs spec nodes sd'.
Proof.
  intros P [F1 F2 F3 F4 F5]. assert (Hin : forall x, In x sd' -> In x sd) by (intros x; apply Permutation_in; exact P).
  constructor.
  - eapply Permutation_trans; [apply Permutation_map; exact P|exact F1].
  - intros n w H. apply (F2 n w), Hin, H.
  - intros u v wu wv Hi Hu Hv. apply (F3 u v); auto.
  - intros h n w Hh Hc Hw. apply (F4 h n w); auto.
  - intros. rewrite (sb_perm _ _ _ _ P). apply F5; assumption.
Qed.
(** The teams of a feasible schedule have no negative counts. *)
Lemma feasible_counts g cs spec nodes sd : graph_ok g nodes -> feasible g cs spec nodes sd ->
  forall x w, In x sd -> In w (sw_team (snd x)) -> 0 <= w_count w /\ exists ct, In ct cs /\ w_contractor w = ct_id ct.
Proof.
  intros Hg F [n v] w Hx Hw. cbn [snd] in Hw.
  assert (Hn : In n nodes).
  { eapply Permutation_in; [apply (fs_works _ _ _ _ _ F)|]. apply in_map_iff. exists (n, v). auto. }
  destruct (has_head g (graph_chains g nodes Hg) nodes (gk_closed _ _ Hg) n Hn) as (h & H1 & H2).
  destruct (fs_teams _ _ _ _ _ F h n v H1 H2 Hx) as (ct & C1 & _ & _ & HF).
  clear - C1 HF Hw. induction HF as [|r k rs tm (D1 & D2 & D3 & _) HF IH]; [destruct Hw|].
  destruct Hw as [->|Hw]; [eauto|auto].
Qed.

(** ** What is known of a scheduled block *)
Definition edges_respected (g : graph) (nodes : list nat) (sd : works) : Prop :=
  forall e wu wv, In e (g_edges g) -> In (e_from e, wu) sd -> In (e_to e, wv) sd ->
    sw_finish wu <= sw_start wv /\
    ((forall h, is_head g nodes h -> in_chain g h (e_from e) -> ~ in_chain g h (e_to e)) ->
     tadd (sw_finish wu) (e_lag e) <= sw_start wv).

Section Block.
  Variables (g : graph) (nodes : list nat) (start finish : nat).
  Hypothesis Hg : graph_ok g nodes.
  Hypothesis Hlags : forall e, In e (g_edges g) -> 0 <= e_lag e.
  Hypothesis Hstart : In start nodes /\ forall n, In n nodes -> n = start \/ path (depends_on g) start n.
  Hypothesis Hfinish : In finish nodes /\ forall n, In n nodes -> n = finish \/ path (depends_on g) n finish.
  Variables (est : nat -> list worker -> Z) (cs : list contractor) (apt : Z).
  Hypothesis Hin : inputs_ok g est cs no_spec apt.

  Lemma no_spec_fits reqs : spec_fits cs reqs (no_spec 0).
  Proof.
    split; [intros ct k m n _ _ []|]. cbn. intros E r Hr. destruct reqs; [destruct Hr|discriminate].
  Qed.

  (** The first node of an order is the start. *)
  Lemma order_starts l chains : (forall h, In h l <-> is_head g nodes h) -> chains_of g l = Some chains -> NoDup (concat chains) ->
    Permutation (concat chains) nodes -> (forall e, In e (g_edges g) -> comes_before (concat chains) (e_from e) (e_to e)) ->
    exists r, l = start :: r.
  Proof.
    intros Hh Hc Hnd HP Ht. destruct l as [|f l].
    { cbn in Hc. injection Hc as <-. cbn in HP. apply Permutation_nil in HP. destruct Hstart as [H _]. rewrite HP in H. destruct H. }
    exists l. f_equal. cbn [chains_of] in Hc. destruct (chain_of g f) as [c|] eqn:Ec; [|discriminate].
    destruct (chains_of g l) as [cs'|]; [|discriminate]. injection Hc as <-. destruct (chain_head _ _ _ Ec) as [r ->].
    assert (Hf : In f nodes) by (apply Hh; left; reflexivity).
    destruct (proj2 Hstart f Hf) as [E|P]; [exact E|exfalso].
    apply clos_trans_tn1 in P.
    assert (Hlast : exists p, depends_on g p f) by (inversion P; eauto). destruct Hlast as (q & e & He & _ & _ & Hto).
    specialize (Ht e He). rewrite Hto in Ht. cbn [concat app] in Ht, Hnd. clear Hto P. inversion Hnd as [|? ? N1 _]; subst.
    destruct Ht as (x & y & z & E). destruct x as [|x0 x]; cbn in E; injection E as E0 E; apply N1; rewrite E; apply in_or_app; right.
    - left. reflexivity.
    - right. apply in_or_app. right. left. reflexivity.
  Qed.

  (** From the facts about the loop to a feasible schedule. *)
  Lemma edges_of_loop chains sd : NoDup (concat chains) ->
    (forall e, In e (g_edges g) -> comes_before (concat chains) (e_from e) (e_to e)) ->
    (forall c, In c chains <-> exists h, is_head g nodes h /\ chain_of g h = Some c) ->
    (forall n w, In (n, w) sd -> 0 <= sw_start w <= sw_finish w /\ sw_finish w <= TIME_INF) ->
    (forall e wu wv, In e (g_edges g) -> In (e_from e, wu) sd -> In (e_to e, wv) sd ->
       ~ same_chain chains (e_from e) (e_to e) -> not_pinned no_spec chains (e_to e) -> tadd (sw_finish wu) (e_lag e) <= sw_start wv) ->
    (forall c u v wu wv, In c chains -> comes_before c u v -> In (u, wu) sd -> In (v, wv) sd ->
       sw_finish wu <= sw_start wv /\ sw_team wu = sw_team wv /\ sw_contractor wu = sw_contractor wv) ->
    edges_respected g nodes sd.
  Proof.
    intros Hnd Ht C5 F2 F3 F4 e wu wv He Hu Hv.
    assert (Hpin : not_pinned no_spec chains (e_to e)).
    { destruct (gk_closed _ _ Hg e He) as [_ Hvn].
      destruct (has_head g (graph_chains g nodes Hg) nodes (gk_closed _ _ Hg) _ Hvn) as (h & Hh1 & Hh2).
      destruct (inseparable_chain_correct g h (graph_chains g nodes Hg) (proj2 Hh1)) as (c & Ec & _ & M & _).
      assert (Ec' := Ec). apply chain_head in Ec' as [r ->]. exists h, r. split; [apply C5; eauto|]. split; [apply M; exact Hh2|left; reflexivity]. }
    assert (Hdec : same_chain chains (e_from e) (e_to e) \/ ~ same_chain chains (e_from e) (e_to e)).
    { clear. induction chains as [|c l IH]; [right; intros (c & [] & _)|].
      destruct IH as [(c' & A & B)|IH]; [left; exists c'; split; [right; exact A|exact B]|].
      destruct (in_dec Nat.eq_dec (e_from e) c) as [X|X], (in_dec Nat.eq_dec (e_to e) c) as [Y|Y];
        [left; exists c; split; [left; reflexivity|auto]|right..];
        intros (c' & [<-|A] & B1 & B2); try tauto; apply IH; exists c'; auto. }
    destruct Hdec as [(c & Hc & Hcu & Hcv)|Hno].
    - split.
      + destruct (Nat.eq_dec (e_from e) (e_to e)) as [Eq|Nq].
        { exfalso. specialize (Ht e He). rewrite Eq in Ht. apply (comes_before_irrefl _ _ Hnd Ht). }
        destruct (comes_before_total c _ _ Hcu Hcv Nq) as [H|H]; [apply (F4 c _ _ wu wv Hc H Hu Hv)|exfalso].
        apply (comes_before_asym _ _ _ Hnd (Ht e He)). apply in_split in Hc as (p & q & ->). rewrite concat_app. cbn [concat].
        apply comes_before_app_r, comes_before_app_l, H.
      + intros Hx. exfalso. apply C5 in Hc as (h & Hh1 & Ec). destruct (chain_in g nodes Hg h c Hh1 Ec) as (_ & M & _).
        apply M in Hcu, Hcv. apply (Hx h Hh1 Hcu Hcv).
    - assert (H := F3 e wu wv He Hu Hv Hno Hpin). split; [|intros _; exact H].
      eapply Z.le_trans; [|exact H]. apply tadd_ge; [apply (F2 _ _ Hu)|apply Hlags, He].
  Qed.

  (** The rows and the execution time of such a schedule. *)
  Lemma rows_of_block (listing : list nat -> list nat) sd : (forall l, Permutation (listing l) l) ->
    Permutation (map fst sd) nodes -> (forall n w, In (n, w) sd -> 0 <= sw_start w <= sw_finish w /\ sw_finish w <= TIME_INF) ->
    edges_respected g nodes sd ->
    exists rows t, schedule_rows listing g (rev sd) = Ends rows /\ Permutation rows sd /\ execution_time rows = Some t
      /\ (forall n w, In (n, w) sd -> sw_finish w <= t) /\ (exists n w, In (n, w) sd /\ sw_finish w = t).
  Proof.
    intros Hlist F1 F2 HE.
    assert (HP : Permutation (map fst (rev sd)) nodes).
    { eapply Permutation_trans; [apply Permutation_map, Permutation_sym, Permutation_rev|exact F1]. }
    assert (Hk : forall n, In n (map fst (rev sd)) <-> In n nodes).
    { intros n. split; apply Permutation_in; [exact HP|apply Permutation_sym; exact HP]. }
    assert (Hnd : NoDup (map fst (rev sd))) by (eapply Permutation_NoDup; [apply Permutation_sym; exact HP|apply Hg]).
    destruct (execution_time_is_latest_finish listing g (rev sd) finish) as (rows & t & E & Et & T1 & T2); auto.
    - apply Hg.
    - intros n w H. apply in_rev in H. apply (F2 n w H).
    - intros n m v w (e & He & _ & <- & <-) Hv Hw. apply in_rev in Hv, Hw. eapply HE; eauto.
    - apply Hk. apply Hfinish.
    - intros n m (e & He & _ & <- & <-). rewrite !Hk. apply (gk_closed _ _ Hg e He).
    - intros n Hn. apply Hk in Hn. apply Hfinish, Hn.
    - exists rows, t. split; [exact E|].
      destruct (rows_ordered listing g (rev sd) Hlist (gk_acyclic _ _ Hg) Hnd) as (rows' & E' & P & _).
      rewrite E in E'. injection E' as <-. split; [eapply Permutation_trans; [exact P|apply Permutation_sym, Permutation_rev]|].
      split; [exact Et|]. split.
      + intros n w H. apply (T1 n w). apply -> in_rev. exact H.
      + destruct T2 as (n & w & H & Ew). apply in_rev in H. eauto.
  Qed.

  (** *** Interval timeline *)
  Lemma momentum_block prioritize optimize t (h : history) (i0 : Z) s0 sd s :
    prioritizes g nodes prioritize -> (forall n c sd s, optimizer_ok (optimize n c sd s)) ->
    s0 = (match t with Intervals s => s | _ => momentum_init (pool_of cs) end) ->
    minv (pool_of cs) h s0 -> m_index s0 <= i0 -> (forall a t, 0 <= busy h a t) -> i0 + Z.of_nat (length nodes) < TIME_INF ->
    schedule_with_cache g nodes prioritize (momentum_build_from g est optimize cs no_spec apt t) = Scheduled sd s ->
    exists h', minv (pool_of cs) h' s /\ m_index s <= i0 + Z.of_nat (length nodes) /\
      (forall a t, busy (schedule_bookings sd) a t + busy h a t <= busy h' a t) /\
      feasible g cs no_spec nodes sd /\ edges_respected g nodes sd /\ (forall n w, In (n, w) sd -> apt <= sw_start w).
  Proof.
    intros Hp Hopt Es0 HM HX Hb Hlen H. destruct Hin as (H1 & H2 & H3 & H4 & H5 & H6).
    destruct (schedule_with_cache_spec g nodes prioritize (momentum_build_from g est optimize cs no_spec apt t) Hg Hp)
      as [[E _]|(l & chains & E & Hh & C1 & C2 & C3 & C4 & C5 & C6)]; rewrite E in H; [discriminate|].
    destruct (momentum_build_from g est optimize cs no_spec apt t l) as [[sd' s']| |] eqn:Eb; try discriminate. injection H as -> ->.
    unfold momentum_build_from in Eb. rewrite <- Es0 in Eb.
    assert (Hcl := chains_of_length _ _ _ C1).
    destruct (loop_inv_from g est optimize cs no_spec apt H1 H2 Hopt H3 H4 H5 H6 i0 l true [] chains [] s0 h sd s)
      as (h' & [K M X L T TM P C] & Hcov & Hge); try assumption.
    - constructor; cbn; try (intros; contradiction); try assumption; try reflexivity; try lia.
    - reflexivity.
    - cbn. lia.
    - intros e He _ _. apply C4, He.
    - cbn [app] in *. exists h'. split; [exact M|]. split; [lia|]. split; [intros a t0; specialize (Hcov a t0); cbn in Hcov; lia|].
      split; [|split].
      + apply (feasible_of g cs no_spec nodes l chains); try assumption.
        intros ct k n t0 Hct Hk. assert (Hcap := capacity_pool cs ct k n H1 Hct Hk).
        destruct (Z.ltb_spec t0 0).
        * rewrite busy_before_zero; [|intros m w Hm; apply (T m w Hm)|assumption]. destruct H1 as [_ Hok].
          destruct (Hok ct Hct) as [_ Hn]. eapply Hn; eauto.
        * eapply Z.le_trans; [apply L|]. eapply minv_busy_le; eauto.
      + eapply edges_of_loop; eauto.
      + intros n w Hw. destruct (Hge n w Hw) as [[]|]; assumption.
  Qed.

  (** *** Release-time timeline *)
  Hypothesis Hservice : reqs_of g start = [].
  Lemma jit_block prioritize optimize t (h : history) s0 sd s :
    prioritizes g nodes prioritize -> (forall n c sd s, optimizer_ok (optimize n c sd s)) ->
    s0 = (match t with ReleaseTimes s => s | _ => jit_init (pool_of cs) end) ->
    jinv (pool_of cs) s0 -> jcovers (pool_of cs) h s0 -> times_le TIME_INF s0 -> (forall a t, 0 <= busy h a t) ->
    schedule_with_cache g nodes prioritize (jit_build_from g est optimize cs no_spec apt t) = Scheduled sd s ->
    exists h', jinv (pool_of cs) s /\ jcovers (pool_of cs) h' s /\ times_le TIME_INF s /\
      (forall a t, busy (schedule_bookings sd) a t + busy h a t <= busy h' a t) /\
      feasible g cs no_spec nodes sd /\ edges_respected g nodes sd /\ (forall n w, In (n, w) sd -> apt <= sw_start w).
  Proof.
    intros Hp Hopt Es0 HJ HC HT Hb H. destruct Hin as (H1 & H2 & H3 & H4 & H5 & H6).
    destruct (schedule_with_cache_spec g nodes prioritize (jit_build_from g est optimize cs no_spec apt t) Hg Hp)
      as [[E _]|(l & chains & E & Hh & C1 & C2 & C3 & C4 & C5 & C6)]; rewrite E in H; [discriminate|].
    destruct (jit_build_from g est optimize cs no_spec apt t l) as [[sd' s']| |] eqn:Eb; try discriminate. injection H as -> ->.
    unfold jit_build_from in Eb. rewrite <- Es0 in Eb.
    destruct (order_starts l chains Hh C1 C2 C3 C4) as (r & El).
    destruct (jloop_inv_from g est optimize cs no_spec apt H1 H2 Hopt H3 H4 H5 (fun n => no_spec_fits _) H6 l true [] chains [] s0 h sd s)
      as (h' & [K J1 J2 J3 L T TM P C] & Hcov & _ & Hge); try assumption.
    - constructor; cbn; try (intros; contradiction); try assumption; try reflexivity.
      intros l1 v w l2 E0. destruct l1; discriminate.
    - intros _. split; [reflexivity|]. right. rewrite El. intros n [= <-]. exact Hservice.
    - discriminate.
    - cbn [app] in *. exists h'. split; [exact J1|]. split; [exact J2|]. split; [exact J3|].
      split; [intros a t0; specialize (Hcov a t0); cbn in Hcov; lia|].
      assert (Hpre : forall e wu wv, In e (g_edges g) -> In (e_from e, wu) sd -> In (e_to e, wv) sd -> tadd (sw_finish wu) (e_lag e) <= sw_start wv).
      { apply (earlier_prec g chains sd); try assumption. intros e He _ _. apply C4, He. }
      assert (F : feasible g cs no_spec nodes sd).
      { apply (feasible_of g cs no_spec nodes l chains); try assumption.
        intros ct k n t0 Hct Hk. assert (Hcap := capacity_pool cs ct k n H1 Hct Hk).
        eapply Z.le_trans; [apply L|]. eapply busy_ge_zero_time; eauto. }
      assert (HE : edges_respected g nodes sd).
      { intros e wu wv He Hu Hv. assert (H := Hpre e wu wv He Hu Hv). split; [|intros _; exact H].
        eapply Z.le_trans; [|exact H]. apply tadd_ge; [apply (T _ _ Hu)|apply Hlags, He]. }
      split; [exact F|]. split; [exact HE|].
      assert (Hkey : forall n, In n nodes -> exists w, In (n, w) sd).
      { intros n Hn. assert (Hk : In n (map fst sd)) by (eapply Permutation_in; [apply Permutation_sym, (fs_works _ _ _ _ _ F)|exact Hn]).
        apply in_map_iff in Hk as ([n' w] & <- & Hk). eauto. }
      destruct (Hkey start (proj1 Hstart)) as (w0 & Hw0).
      assert (H0 : apt <= sw_start w0) by (apply (Hge eq_refl start w0); [rewrite El; reflexivity|exact Hw0]).
      assert (Hnd : NoDup (map fst sd)) by (rewrite K; apply NoDup_rev; exact C2).
      assert (Hpath : forall n, path (depends_on g) start n -> forall w, In (n, w) sd -> apt <= sw_start w).
      { intros n Hn. apply clos_trans_tn1 in Hn. induction Hn as [n (e & He & _ & E1 & E2)|m n (e & He & _ & E1 & E2) _ IH]; intros w Hw.
        - subst n. destruct (HE e w0 w He) as [A _]; [rewrite E1; exact Hw0|exact Hw|]. specialize (T _ _ Hw0). lia.
        - subst m n. destruct (Hkey (e_from e)) as (wm & Hwm); [apply (gk_closed _ _ Hg e He)|].
          destruct (HE e wm w He Hwm Hw) as [A _]. specialize (IH wm Hwm). specialize (T _ _ Hwm). lia. }
      intros n w Hw. assert (Hn : In n nodes).
      { eapply Permutation_in; [apply (fs_works _ _ _ _ _ F)|]. apply in_map_iff. exists (n, w). auto. }
      destruct (proj2 Hstart n Hn) as [->|Hn']; [|apply (Hpath n Hn' w Hw)].
      assert (w = w0) by (eapply nodup_key; eauto). subst w. exact H0.
  Qed.
End Block.
