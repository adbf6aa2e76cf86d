(** C104: a project of blocks that every agent can do is always scheduled. *)
From Coq Require Import ZArith List Bool Lia Arith Relations Permutation ZifyBool ZifyNat.
From Verif Require Import TimeModel ScheduleProofs MomentumModel JITModel MomentumSpec MomentumHistory MomentumTeamProofs JITHistory JITProofs GraphModel
  ScheduleModel ScheduleSpec ContractorProofs TeamProofs SchedulePoolProofs ScheduleInv JitScheduleInv ScheduleSafe JitScheduleSafe ContractorTheorems ScheduleTheorems Digraph TopoModel TopoProofs TopoTheorems HeadModel HeadProofs
  HeadTheorems PriorityModel PriorityTheorems TraverseModel ValidationModel ValidationProofs OrderModel PipelineModel PipelineTheorems
  MultiAgentModel MultiAgentTheorems BlockSchedModel BlockSchedProofs BlockSchedTheorems.
Import ListNotations.
Local Open Scope Z_scope.

(** The agent [a] can do the block [B], number [b], in the time [span]: some contractor of
    the agent has enough workers for each work, no chains of inseparable works wait for each
    other, the optimizer answers if the time can be computed, and the sum of all times is no more
    than [span]. *)
Record can_do (a : agent_setup) (b : nat) (B : block) (span : Z) : Prop := {
  cd_chains : ~ chains_cyclic (bl_graph B) (bl_nodes B);
  cd_lags : inseparable_lags_ok (bl_graph B);
  cd_services : forall n, u_service (g_unit (bl_graph B) n) = true -> reqs_of (bl_graph B) n = [];
  cd_kinds : forall h m, is_head (bl_graph B) (bl_nodes B) h -> in_chain (bl_graph B) h m ->
    map r_kind (reqs_of (bl_graph B) m) = map r_kind (reqs_of (bl_graph B) h);
  cd_able : forall h, is_head (bl_graph B) (bl_nodes B) h -> exists ct, In ct (as_contractors a) /\ able ct (reqs_of (bl_graph B) h);
  cd_intervals : forall again apt, optimizer_answers (momentum_times (bl_graph B) (as_estimate a again b))
    (fun n c sd s => as_optimize a again b n c sd (Intervals s)) (reqs_of (bl_graph B)) (as_contractors a) no_spec apt;
  cd_releases : forall again apt, optimizer_answers (jit_find (bl_graph B) (as_estimate a again b))
    (fun n c sd s => as_optimize a again b n c sd (ReleaseTimes s)) (reqs_of (bl_graph B)) (as_contractors a) no_spec apt;
  cd_span : exists D Lg, (0 <= D /\ forall again, estimates_bounded (bl_graph B) (as_estimate a again b) (as_contractors a) no_spec D) /\
    (0 <= Lg /\ forall e, In e (g_edges (bl_graph B)) -> e_lag e <= Lg) /\
    Z.of_nat (length (bl_nodes B)) * (D + Lg + 1) <= span }.

(** ** One block *)
Section OneBlock.
  Variables (g : graph) (nodes : list nat) (start : nat).
  Hypothesis Hg : graph_ok g nodes.
  Hypothesis Hstart : In start nodes /\ forall n, In n nodes -> n = start \/ path (depends_on g) start n.
  Hypothesis Hservice : reqs_of g start = [].
  Variables (est : nat -> list worker -> Z) (cs : list contractor) (apt : Z).
  Hypothesis Hin : inputs_ok g est cs no_spec apt.
  Variables (D Lg B0 : Z).
  Hypothesis HD : 0 <= D /\ estimates_bounded g est cs no_spec D.
  Hypothesis HL : 0 <= Lg /\ forall e, In e (g_edges g) -> e_lag e <= Lg.
  Hypothesis HB0 : apt <= B0.
  Hypothesis Hfit : 2 * (B0 + Z.of_nat (length nodes) * (D + Lg)) < TIME_INF.
  Hypothesis Hcyc : ~ chains_cyclic g nodes.
  Hypothesis Hable : forall h, is_head g nodes h -> exists ct, In ct cs /\ able ct (reqs_of g h).

  Lemma momentum_block_total prioritize optimize t (h : MomentumSpec.history) (i0 : Z) s0 :
    prioritizes g nodes prioritize -> (forall n c sd s, optimizer_ok (optimize n c sd s)) ->
    optimizer_answers (momentum_times g est) optimize (reqs_of g) cs no_spec apt ->
    (forall n, u_service (g_unit g n) = true -> reqs_of g n = []) ->
    (forall h m, is_head g nodes h -> in_chain g h m -> map r_kind (reqs_of g m) = map r_kind (reqs_of g h)) ->
    s0 = (match t with Intervals s => s | _ => momentum_init (pool_of cs) end) ->
    minv (pool_of cs) h s0 -> m_index s0 <= i0 -> (forall a t, 0 <= busy h a t) -> i0 + Z.of_nat (length nodes) < TIME_INF ->
    (forall x, In x (all_times (m_tl s0)) -> x <= B0) ->
    exists sd s, schedule_with_cache g nodes prioritize (momentum_build_from g est optimize cs no_spec apt t) = Scheduled sd s /\
      (forall n w, In (n, w) sd -> sw_finish w <= B0 + Z.of_nat (length nodes) * (D + Lg)) /\
      (forall x, In x (all_times (m_tl s)) -> x <= B0 + Z.of_nat (length nodes) * (D + Lg)).
  Proof.
    intros Hp Hopt Hans Hsv Hsh Es0 HM HX Hb Hlen HT. destruct Hin as (H1 & H2 & H3 & H4 & H5 & H6).
    destruct (schedule_with_cache_spec g nodes prioritize (momentum_build_from g est optimize cs no_spec apt t) Hg Hp)
      as [[_ E]|(l & chains & E & Hh & C1 & C2 & C3 & C4 & C5 & C6)]; [contradiction|]. rewrite E.
    assert (Hle : length (concat chains) = length nodes) by (apply Permutation_length; exact C3).
    assert (Hsh' : forall n c m, chain_of g n = Some c -> In m c -> map r_kind (reqs_of g m) = map r_kind (reqs_of g n)).
    { intros n c m Hc Hm. destruct (inseparable_parent g n) as [q|] eqn:Eq.
      - unfold chain_of in Hc. rewrite Eq in Hc. destruct (inseparable_son g n); injection Hc as <-; destruct Hm as [<-|[]]; reflexivity.
      - destruct (in_dec Nat.eq_dec n nodes) as [Hn|Hn].
        + assert (Hhd : is_head g nodes n) by (split; [exact Hn|apply parent_none; exact Eq]).
          apply Hsh; [exact Hhd|]. apply (chain_in g nodes Hg n c Hhd Hc). exact Hm.
        + destruct (inseparable_son g n) as [b|] eqn:Eb.
          * exfalso. apply son_some in Eb as (e & He & _ & Ef & _). apply Hn. rewrite <- Ef. apply (gk_closed _ _ Hg e He).
          * unfold chain_of in Hc. rewrite Eb in Hc. injection Hc as <-. destruct Hm as [<-|[]]. reflexivity. }
    destruct (order_starts g nodes start Hstart l chains Hh C1 C2 C3 C4) as (r & El).
    assert (Hcl := chains_of_length _ _ _ C1).
    assert (S := loop_safe_from g est optimize cs no_spec apt D Lg H1 H2 Hopt Hans H3 H5 H6 H4 HD HL (fun _ => eq_refl)
      (fun n => no_spec_fits cs (reqs_of g n)) Hsv Hsh' i0 B0 HB0 l true [] chains [] s0 h).
    unfold momentum_build_from. rewrite <- Es0. cbn [app] in S. rewrite Hle in S.
    destruct (build_loop mstate _ _ _ _ _ _ _ _ _ _ _) as [[sd s]| |].
    - exists sd, s. split; [reflexivity|]. apply S; try assumption.
      + constructor; cbn; try (intros; contradiction); try assumption; try reflexivity; try lia.
      + intros _. split; [reflexivity|]. right. rewrite El. intros n [= <-]. exact Hservice.
      + split; [cbn; lia|]. split; [intros n w []|]. intros x Hx. cbn. specialize (HT x Hx). lia.
      + lia.
      + intros e He _ _. apply C4, He.
    - exfalso. destruct S as (n & Hn & S); try assumption.
      + constructor; cbn; try (intros; contradiction); try assumption; try reflexivity; try lia.
      + intros _. split; [reflexivity|]. right. rewrite El. intros n [= <-]. exact Hservice.
      + split; [cbn; lia|]. split; [intros n w []|]. intros x Hx. cbn. specialize (HT x Hx). lia.
      + lia.
      + intros e He _ _. apply C4, He.
      + destruct (Hable n (proj1 (Hh n) Hn)) as (ct & A1 & A2). apply (S ct A1 (or_introl eq_refl) A2).
    - exfalso. apply S; try assumption.
      + constructor; cbn; try (intros; contradiction); try assumption; try reflexivity; try lia.
      + intros _. split; [reflexivity|]. right. rewrite El. intros n [= <-]. exact Hservice.
      + split; [cbn; lia|]. split; [intros n w []|]. intros x Hx. cbn. specialize (HT x Hx). lia.
      + lia.
      + intros e He _ _. apply C4, He.
  Qed.

  Lemma jit_block_total prioritize optimize t (h : MomentumSpec.history) s0 :
    prioritizes g nodes prioritize -> (forall n c sd s, optimizer_ok (optimize n c sd s)) ->
    optimizer_answers (jit_find g est) optimize (reqs_of g) cs no_spec apt -> inseparable_lags_ok g ->
    s0 = (match t with ReleaseTimes s => s | _ => jit_init (pool_of cs) end) ->
    jinv (pool_of cs) s0 -> jcovers (pool_of cs) h s0 -> times_le TIME_INF s0 -> (forall a t, 0 <= busy h a t) -> times_le B0 s0 ->
    exists sd s, schedule_with_cache g nodes prioritize (jit_build_from g est optimize cs no_spec apt t) = Scheduled sd s /\
      (forall n w, In (n, w) sd -> sw_finish w <= B0 + Z.of_nat (length nodes) * (D + Lg)) /\
      times_le (B0 + Z.of_nat (length nodes) * (D + Lg)) s.
  Proof.
    intros Hp Hopt Hans Hlg Es0 HJ HC HT Hb HT0. destruct Hin as (H1 & H2 & H3 & H4 & H5 & H6).
    destruct (schedule_with_cache_spec g nodes prioritize (jit_build_from g est optimize cs no_spec apt t) Hg Hp)
      as [[_ E]|(l & chains & E & Hh & C1 & C2 & C3 & C4 & C5 & C6)]; [contradiction|]. rewrite E.
    assert (Hle : length (concat chains) = length nodes) by (apply Permutation_length; exact C3).
    destruct (order_starts g nodes start Hstart l chains Hh C1 C2 C3 C4) as (r & El).
    assert (Hsi : single_inseparable_parent g).
    { intros e e' He He' Hi1 Hi2 Ht. apply (gk_single_parent _ _ Hg _ _ (e_to e)); [exists e|exists e']; auto. }
    assert (Hpn : forall n, In n l -> inseparable_parent g n = None).
    { intros n Hn. apply parent_none. apply Hh in Hn. apply Hn. }
    assert (S := jloop_safe_from g est optimize cs no_spec apt D Lg H1 H2 Hopt Hans H3 H4 H5
      (fun n => no_spec_fits cs (reqs_of g n)) H6 Hsi Hlg HD HL (fun _ => eq_refl) B0 HB0 l true [] chains [] s0 h).
    unfold jit_build_from. rewrite <- Es0. cbn [app] in S. rewrite Hle in S.
    assert (J : jsinv g cs no_spec [] [] s0 h).
    { constructor; cbn; try (intros; contradiction); try assumption; try reflexivity.
      intros l1 v w l2 E0. destruct l1; discriminate. }
    assert (F : true = true -> @nil (nat * swork) = [] /\ (s0 = jit_init (pool_of cs) \/ forall n, hd_error l = Some n -> reqs_of g n = [])).
    { intros _. split; [reflexivity|]. right. rewrite El. intros n [= <-]. exact Hservice. }
    specialize (S J F ltac:(discriminate)).
    assert (JB : jbelow (B0 + Z.of_nat (length (concat (@nil (list nat)))) * (D + Lg)) [] s0).
    { split; [intros n w []|]. intros a st x Ha Hx. cbn. specialize (HT0 a st x Ha Hx). lia. }
    specialize (S JB C1 Hpn Hfit C2).
    destruct (build_loop jtimeline _ _ _ _ _ _ _ _ _ _ _) as [[sd s]| |].
    - exists sd, s. split; [reflexivity|]. exact S.
    - exfalso. destruct S as (n & Hn & S). destruct (Hable n (proj1 (Hh n) Hn)) as (ct & A1 & A2). apply (S ct A1 (or_introl eq_refl) A2).
    - destruct S.
  Qed.
End OneBlock.

(** ** One offer *)
Definition times_upto (u : Z) (t : tline) : Prop :=
  match t with
  | NoTimeline => True
  | ReleaseTimes s => times_le u s
  | Intervals s => forall x, In x (all_times (m_tl s)) -> x <= u
  end.
Lemma momentum_init_times cs u : 0 <= u -> forall x, In x (all_times (m_tl (momentum_init (pool_of cs)))) -> x <= u.
Proof.
  intros Hu x Hx. assert (x = 0); [|lia]. unfold momentum_init in Hx. simpl in Hx. unfold all_times in Hx.
  rewrite map_map in Hx. simpl in Hx. apply in_concat in Hx as (l & Hl & Hx).
  apply in_map_iff in Hl as (y & <- & _). destruct Hx as [<-|[]]. reflexivity.
Qed.

Section Total.
  Variables (setup : nat -> agent_setup) (blocks : nat -> block) (listing shuffle : list nat -> list nat).
  Hypothesis Hlist : forall l, Permutation (listing l) l.
  Hypothesis Hshuffle : forall l, Permutation (shuffle l) l.
  Hypothesis Hsetup : forall i, setup_ok (setup i).

  Definition free_from (i : nat) (t : tline) (u : Z) : Prop :=
    times_upto u t /\ exists h, accounts (as_scheduler (setup i)) (pool_of (as_contractors (setup i))) h u t /\ (forall a m, 0 <= busy h a m).
  Lemma free_mono i t u u' : free_from i t u -> u <= u' -> free_from i t u'.
  Proof.
    intros (T & h & A & B) Hu. split; [|exists h; split; [eapply accounts_mono; eauto|exact B]].
    destruct t; cbn in *; [exact I|intros a st x Ha Hx; specialize (T a st x Ha Hx); lia|intros x Hx; specialize (T x Hx); lia].
  Qed.

  Lemma offer_total i again t b p u span :
    block_ok (blocks b) -> can_do (setup i) b (blocks b) span -> free_from i t u -> 0 <= p <= u -> 2 * (u + span) < TIME_INF ->
    exists o, agent_offer setup blocks listing shuffle i again t b p = Some o /\ p <= of_start o /\
      of_start o <= of_end o <= u + span /\ free_from i (of_timeline o) (u + span).
  Proof.
    intros HB HC (HT & h & Hac & Hb) Hp Hu. set (B := blocks b) in *. destruct (Hsetup i) as [S1 S2 S3].
    set (cs := as_contractors (setup i)) in *. set (est := as_estimate (setup i) again b).
    destruct (cd_span _ _ _ _ HC) as (D & Lg & (HD0 & HD) & (HL0 & HL) & Hspan). fold B in HL, Hspan.
    assert (Hinf := INF_pos).
    assert (Hlen0 : Z.of_nat (length (bl_nodes B)) * (D + Lg) + Z.of_nat (length (bl_nodes B)) <= span) by lia.
    assert (Hlen1 : 0 <= Z.of_nat (length (bl_nodes B)) * (D + Lg)) by nia.
    set (N := Z.of_nat (length (bl_nodes B)) * (D + Lg)) in *.
    assert (Hpi : 0 <= p <= TIME_INF) by lia.
    assert (Hin : inputs_ok (bl_graph B) est cs no_spec p).
    { split; [exact S1|]. split; [apply S2|]. split; [apply (bo_reqs _ HB)|]. split; [apply (bo_volumes _ HB)|]. split; [|exact Hpi].
      intros n. split; [intros k0 n0 []|exact I]. }
    assert (Hheft := heft_prioritizes (bl_graph B) (bl_nodes B) est (bl_priority B) (bo_graph _ HB) (S2 again b) (bo_priorities _ HB)).
    assert (Htopo := topological_prioritizes (bl_graph B) (bl_nodes B) (bl_priority B) shuffle (bo_graph _ HB) Hshuffle (bo_priorities _ HB)).
    (* from an offer whose times are known to the claim *)
    assert (Hend : forall o, agent_offer setup blocks listing shuffle i again t b p = Some o ->
      (forall n w, In (n, w) (of_schedule o) -> sw_finish w <= u + N) -> times_upto (u + N) (of_timeline o) ->
      exists o, agent_offer setup blocks listing shuffle i again t b p = Some o /\ p <= of_start o /\
        of_start o <= of_end o <= u + span /\ free_from i (of_timeline o) (u + span)).
    { intros o Ho Hw Ht. exists o. split; [exact Ho|].
      destruct (offer_spec setup blocks listing shuffle Hlist Hshuffle Hsetup i again t b p o h u HB Hpi Hac Hb ltac:(lia) ltac:(fold B; lia) Ho)
        as (O1 & O2 & h' & O3 & O4). fold B cs in O2, O3.
      destruct (bd_finish _ _ _ _ _ O2) as [_ (n & w & Hn & En)].
      assert (W1 := Hw n w Hn). assert (W2 := bd_start _ _ _ _ _ O2 n w Hn). assert (W3 := fs_times _ _ _ _ _ (bd_feasible _ _ _ _ _ O2) n w Hn).
      split; [lia|]. split; [lia|]. split.
      - destruct (of_timeline o); cbn in *; [exact I|intros a st x Ha Hx; specialize (Ht a st x Ha Hx); lia|intros x Hx; specialize (Ht x Hx); lia].
      - exists h'. split; [eapply accounts_mono; [|exact O3]; lia|]. intros a m. specialize (O4 a m). specialize (Hb a m).
        assert (X := block_done_busy _ _ _ _ _ a m HB O2). lia. }
    assert (Hanswer : forall T (wrap : T -> tline) sd (s : T), feasible (bl_graph B) cs no_spec (bl_nodes B) sd -> edges_respected (bl_graph B) (bl_nodes B) sd ->
      exists o, answer listing wrap (bl_graph B) p (Scheduled sd s) = Some o /\ Permutation (of_schedule o) sd /\ of_timeline o = wrap s).
    { intros T wrap sd s F HE.
      destruct (rows_of_block (bl_graph B) (bl_nodes B) (bl_finish B) (bo_graph _ HB) (bo_finish _ HB) listing sd Hlist
               (fs_works _ _ _ _ _ F) (fs_times _ _ _ _ _ F) HE) as (rows & tm & E & P & Et & T1 & T2).
      unfold answer. rewrite E, Et. eexists. split; [reflexivity|]. split; [exact P|reflexivity]. }
    assert (Hint : forall prioritize, prioritizes (bl_graph B) (bl_nodes B) prioritize -> as_scheduler (setup i) <> HEFT ->
      exists o, answer listing Intervals (bl_graph B) p (schedule_with_cache (bl_graph B) (bl_nodes B) prioritize
        (momentum_build_from (bl_graph B) est (fun n c sd s => as_optimize (setup i) again b n c sd (Intervals s)) cs no_spec p t)) = Some o /\
        (forall n w, In (n, w) (of_schedule o) -> sw_finish w <= u + N) /\ times_upto (u + N) (of_timeline o)).
    { intros prioritize Hpr Hsc.
      assert (Hst : minv (pool_of cs) h (match t with Intervals s => s | _ => momentum_init (pool_of cs) end) /\
                    m_index (match t with Intervals s => s | _ => momentum_init (pool_of cs) end) <= u /\
                    (forall x, In x (all_times (m_tl (match t with Intervals s => s | _ => momentum_init (pool_of cs) end))) -> x <= u)).
      { destruct Hac as [->|s0 E|s0 _ M X]; [|congruence|auto].
        split; [apply momentum_init_inv, pool_of_ok, S1|]. split; [cbn; lia|]. apply momentum_init_times. lia. }
      destruct Hst as (HM & HX & HTm).
      destruct (momentum_block_total (bl_graph B) (bl_nodes B) (bl_start B) (bo_graph _ HB) (bo_start _ HB) (bo_service _ HB) est cs p Hin D Lg u
        (conj HD0 (HD again)) (conj HL0 HL) (proj2 Hp) ltac:(fold N; lia) (cd_chains _ _ _ _ HC) (cd_able _ _ _ _ HC)
        prioritize _ t h u _ Hpr (fun n c sd s => S3 again b n c sd (Intervals s)) (cd_intervals _ _ _ _ HC again p) (cd_services _ _ _ _ HC) (cd_kinds _ _ _ _ HC)
        eq_refl HM HX Hb ltac:(lia) HTm) as (sd & s & Es & E1 & E2). fold N in E1, E2.
      destruct (momentum_block (bl_graph B) (bl_nodes B) 0%nat (bo_graph _ HB) (bo_lags _ HB) est cs p Hin prioritize _ t h u _ sd s
                  Hpr (fun n c sd s => S3 again b n c sd (Intervals s)) eq_refl HM HX Hb ltac:(lia) Es) as (h' & _ & _ & _ & F & HE & _).
      rewrite Es. destruct (Hanswer mstate Intervals sd s F HE) as (o & Eo & P & Et). exists o. split; [exact Eo|]. split.
      - intros n w Hn. apply (E1 n w). eapply Permutation_in; eauto.
      - rewrite Et. exact E2. }
    destruct (as_scheduler (setup i)) eqn:Esc.
    - assert (Hst : jinv (pool_of cs) (match t with ReleaseTimes s => s | _ => jit_init (pool_of cs) end) /\
                    jcovers (pool_of cs) h (match t with ReleaseTimes s => s | _ => jit_init (pool_of cs) end) /\
                    times_le TIME_INF (match t with ReleaseTimes s => s | _ => jit_init (pool_of cs) end) /\
                    times_le u (match t with ReleaseTimes s => s | _ => jit_init (pool_of cs) end)).
      { destruct Hac as [->|s1 _ J1 J2 J3|s1 E]; [|auto|congruence].
        destruct (jit_init_inv _ (pool_of_ok cs S1)) as [I1 I2]. split; [exact I1|]. split; [exact I2|]. split; apply jit_init_times; lia. }
      destruct Hst as (J1 & J2 & J3 & J4).
      destruct (jit_block_total (bl_graph B) (bl_nodes B) (bl_start B) (bo_graph _ HB) (bo_start _ HB) (bo_service _ HB) est cs p Hin D Lg u
        (conj HD0 (HD again)) (conj HL0 HL) (proj2 Hp) ltac:(fold N; lia) (cd_chains _ _ _ _ HC) (cd_able _ _ _ _ HC)
        _ _ t h _ Hheft (fun n c sd s => S3 again b n c sd (ReleaseTimes s)) (cd_releases _ _ _ _ HC again p) (cd_lags _ _ _ _ HC)
        eq_refl J1 J2 J3 Hb J4) as (sd & s & Es & E1 & E2). fold N in E1, E2.
      destruct (jit_block (bl_graph B) (bl_nodes B) (bl_start B) 0%nat (bo_graph _ HB) (bo_lags _ HB) (bo_start _ HB) est cs p Hin (bo_service _ HB) _ _ t h _ sd s
                  Hheft (fun n c sd s => S3 again b n c sd (ReleaseTimes s)) eq_refl J1 J2 J3 Hb Es) as (h' & _ & _ & _ & _ & F & HE & _).
      destruct (Hanswer jtimeline ReleaseTimes sd s F HE) as (o & Eo & P & Et). rewrite <- Es in Eo.
      apply (Hend o).
      + unfold agent_offer. fold B cs est. rewrite Esc. exact Eo.
      + intros n w Hn. apply (E1 n w). eapply Permutation_in; eauto.
      + rewrite Et. exact E2.
    - destruct (Hint _ Hheft ltac:(discriminate)) as (o & Eo & W1 & W2). apply (Hend o); auto.
      unfold agent_offer. fold B cs est. rewrite Esc. exact Eo.
    - destruct (Hint _ Htopo ltac:(discriminate)) as (o & Eo & W1 & W2). apply (Hend o); auto.
      unfold agent_offer. fold B cs est. rewrite Esc. exact Eo.
  Qed.

  (** C104. If the blocks do not depend on each other cyclically and each agent can do each
      block, the manager finds an agent for each block. *)
  Theorem blocks_always_scheduled count nodes edges span :
    (0 < count)%nat -> 0 <= span -> 2 * (Z.of_nat (length nodes) * (span + 1) + 1) < TIME_INF ->
    NoDup nodes -> (forall a b, edge_of edges a b -> In a nodes /\ In b nodes) -> acyclic (edge_of edges) ->
    (forall b, In b nodes -> block_ok (blocks b)) ->
    (forall i b, (i < count)%nat -> In b nodes -> can_do (setup i) b (blocks b) span) ->
    exists done agents', manage setup blocks listing shuffle count (block_graph_of nodes edges) = Some (done, agents').
  Proof.
    intros Hc Hs Hfit Hnd He Hac HB HC. unfold manage.
    assert (Hla : length (new_agents count) = count) by (unfold new_agents; rewrite map_length, seq_length; reflexivity).
    apply (manage_blocks_total_for tline works _ free_from span (Z.of_nat (length nodes) * (span + 1) + 1)); try assumption; try lia.
    - apply free_mono.
    - intros i again t w p h Hi Hw Hf Hp Hh. rewrite Hla in Hi. apply offer_total; auto. lia.
    - intros E. rewrite E in Hla. cbn in Hla. lia.
    - intros i a Ha. unfold new_agents in Ha. apply nth_error_In, in_map_iff in Ha as (j & <- & _).
      split; [exact I|]. exists []. split; [apply ac_none; reflexivity|]. intros a m. cbn. lia.
  Qed.
End Total.
Print Assumptions blocks_always_scheduled.

(** ** A case that meets the hypotheses *)
Lemma sx_in_chain p u : in_chain sx_graph p u -> u = p \/ (p = 1 /\ u = 2)%nat.
Proof.
  assert (Hi : forall x y, inseparable sx_graph x y -> (x = 1 /\ y = 2)%nat).
  { intros x y (e & H & Hi & <- & <-). simpl in H. repeat destruct H as [<-|H]; try tauto; try discriminate; auto. }
  intros H. induction H as [x y H|x|x y z _ IH1 _ IH2]; [right; apply Hi, H|auto|]. lia.
Qed.
Lemma sx_chains : ~ chains_cyclic sx_graph px_nodes.
Proof.
  assert (Hlt : forall x y, path (fun x y => is_head sx_graph px_nodes x /\ is_head sx_graph px_nodes y /\ prerequisite sx_graph x y) x y -> (x < y)%nat).
  { intros x y H. induction H as [x y (Hx & Hy & Hne & u & v & (e & H & _ & E1 & E2) & Hu & Hv)|]; [|lia].
    apply sx_in_chain in Hu, Hv. simpl in H. repeat destruct H as [<-|H]; try tauto; simpl in E1, E2; lia. }
  intros (h & H). apply Hlt in H. lia.
Qed.
Lemma bx_can_do i b : can_do (bx_setup i) b bx_block 126.
Proof.
  destruct sx_hypotheses as (_ & _ & _ & _ & _ & _ & _ & _ & _ & _ & _ & _ & _ & H13 & _ & _ & _ & H17 & H18).
  constructor; cbn [bx_block bl_graph bl_nodes].
  - exact sx_chains.
  - intros e He _. apply (bo_lags _ bx_block_ok e He).
  - exact H17.
  - intros h m Hh Hm. destruct (inseparable_chain_correct _ h (graph_chains _ _ px_graph_ok) (proj2 Hh)) as (c & Ec & _ & M & _).
    apply (H18 h c m Ec). apply M. exact Hm.
  - intros h [Hh _]. exists (Ct (2 * i) [(0%nat, 3); (1%nat, 2)]). split; [left; reflexivity|].
    intros r Hr. cbn in Hh. repeat destruct Hh as [<-|Hh]; try destruct Hh; cbn in Hr; repeat destruct Hr as [<-|Hr]; try destruct Hr; cbn;
      eexists; (split; [left; reflexivity|lia]) || (split; [right; left; reflexivity|lia]).
  - intros. apply min_optimizer_answers.
  - intros. apply min_optimizer_answers.
  - exists 18, 2. split; [|split; [exact H13|cbn; lia]]. split; [lia|]. intros again n c m ct team _ _ _ _. cbn [bx_setup as_estimate].
    destruct team as [|w team]; cbn [sx_est]; [lia|]. destruct (_ <? _); lia.
Qed.
Example blocks_total_example :
  (0 < 2)%nat /\ 2 * (Z.of_nat (length example_nodes) * (126 + 1) + 1) < TIME_INF /\
  NoDup example_nodes /\ (forall a b, edge_of example_edges a b -> In a example_nodes /\ In b example_nodes) /\ acyclic (edge_of example_edges) /\
  (forall i, setup_ok (bx_setup i)) /\ (forall b, In b example_nodes -> block_ok bx_block) /\
  (forall i b, (i < 2)%nat -> In b example_nodes -> can_do (bx_setup i) b bx_block 126).
Proof.
  split; [lia|]. split; [change TIME_INF with 2000000000; cbn; lia|]. split; [repeat constructor; cbn; intuition lia|].
  split; [intros a b H; unfold edge_of in H; cbn in H; intuition; match goal with H : (_, _) = (_, _) |- _ => injection H as <- <-; cbn; auto 10 end|].
  split; [|split; [exact bx_setup_ok|split; [intros; exact bx_block_ok|intros; apply bx_can_do]]].
  assert (Hlt : forall x y, path (edge_of example_edges) x y -> (x < y)%nat).
  { intros x y H. induction H as [x y H|]; [|lia]. unfold edge_of in H. cbn in H. intuition; match goal with H : (_, _) = (_, _) |- _ => injection H as <- <-; lia end. }
  intros x H. apply Hlt in H. lia.
Qed.

(** ** One agent that cannot do a block stops all
    An agent without enough workers raises an exception instead of abstaining from the auction,
    so the project is not scheduled although the other agent could do all of it. *)
Definition bx_poor (i : nat) : agent_setup :=
  match i with
  | O => bx_setup 0
  | S _ => AS [Ct 9 [(0%nat, 1); (1%nat, 1)]] HEFT (as_estimate (bx_setup 0)) (as_optimize (bx_setup 0))
  end.
Theorem unable_agent_stops_all :
  exists setup blocks nodes edges done agents',
    (forall i, setup_ok (setup i)) /\ (forall b, In b nodes -> block_ok (blocks b)) /\ acyclic (edge_of edges) /\
    (forall b, In b nodes -> can_do (setup 0%nat) b (blocks b) 126) /\
    manage setup blocks (fun l => l) (fun l => l) 1 (block_graph_of nodes edges) = Some (done, agents') /\
    manage setup blocks (fun l => l) (fun l => l) 2 (block_graph_of nodes edges) = None.
Proof.
  exists bx_poor, (fun _ => bx_block), example_nodes, example_edges. eexists _, _.
  split.
  { intros [|i]; [apply bx_setup_ok|]. constructor; [|apply (so_estimate _ (bx_setup_ok 0))|apply (so_optimize _ (bx_setup_ok 0))].
    split; [constructor; [intros []|constructor]|]. intros c [<-|[]]; cbn [ct_workers map fst].
    split; [constructor; [intros [H|[]]; discriminate H|constructor; [intros []|constructor]]|].
    intros k n [H|[H|[]]]; injection H as <- <-; lia. }
  split; [intros; exact bx_block_ok|]. split; [apply blocks_total_example|]. split; [intros b _; apply (bx_can_do 0 b)|].
  split; vm_compute; reflexivity.
Qed.
Print Assumptions unable_agent_stops_all.
