(** C51: from a work graph to a feasible schedule. *)
From Coq Require Import ZArith List Bool Lia Arith Relations Sorted Permutation ZifyBool ZifyNat.
From Verif Require Import TimeModel MomentumModel JITModel MomentumSpec GraphModel ScheduleModel ScheduleSpec TeamProofs ContractorTheorems
  ScheduleInv ScheduleTheorems JitScheduleTheorems Digraph StableSort TopoModel TopoProofs TopoTheorems HeadModel HeadProofs HeadTheorems
  PriorityModel PriorityProofs PriorityTheorems ValidationModel ValidationTheorems PipelineModel.
Import ListNotations.
Local Open Scope Z_scope.

(** A work graph whose edges are all of the finish-start kinds: the edges connect works of
    the graph, the dependencies have no cycle, inseparable edges form chains. *)
Record graph_ok (g : graph) (nodes : list nat) : Prop := {
  gk_nodup : NoDup nodes;
  gk_closed : forall e, In e (g_edges g) -> In (e_from e) nodes /\ In (e_to e) nodes;
  gk_types : forall e, In e (g_edges g) -> is_dependency (e_type e) = true;
  gk_single_parent : forall x x' y, inseparable g x y -> inseparable g x' y -> x = x';
  gk_single_son : forall x y y', inseparable g x y -> inseparable g x y' -> y = y';
  gk_acyclic : acyclic (depends_on g) }.
(** The chains, taken as units, depend on each other cyclically. *)
Definition chains_cyclic (g : graph) (nodes : list nat) : Prop :=
  exists h, path (fun x y => is_head g nodes x /\ is_head g nodes y /\ prerequisite g x y) h h.
(** The priorities respect the dependencies between chains. *)
Definition priorities_ok (g : graph) (nodes : list nat) (prio : nat -> Z) : Prop :=
  forall x y, is_head g nodes x -> is_head g nodes y -> prerequisite g x y -> prio x <= prio y.

(** A feasible schedule of the works [nodes]. *)
Record feasible (g : graph) (cs : list contractor) (spec : nat -> work_spec) (nodes : list nat) (sd : sched) : Prop := {
  fs_works : Permutation (map fst sd) nodes;
  fs_times : forall n w, In (n, w) sd -> 0 <= sw_start w <= sw_finish w /\ sw_finish w <= TIME_INF;
  fs_chains : forall u v wu wv, inseparable g u v -> In (u, wu) sd -> In (v, wv) sd ->
    sw_finish wu <= sw_start wv /\ sw_team wu = sw_team wv /\ sw_contractor wu = sw_contractor wv;
  fs_teams : forall h n w, is_head g nodes h -> in_chain g h n -> In (n, w) sd -> staffed g cs spec h w;
  fs_capacity : forall ct k n t, In ct cs -> In (k, n) (ct_workers ct) -> busy (schedule_bookings sd) (ct_id ct, k) t <= n }.

Lemma graph_chains g nodes : graph_ok g nodes -> chains_wf g.
Proof.
  intros H. split; [apply H|]. split; [apply H|]. intros x Hx. apply (gk_acyclic _ _ H x). eapply path_incl; [|exact Hx].
  intros a b (e & He & Hi & Hf & Hto). exists e. rewrite Hi. auto.
Qed.

(** ** Orders of heads and the works of their chains *)
Lemma chains_of_spec g l : (forall h, In h l -> exists c, chain_of g h = Some c) ->
  exists chains, chains_of g l = Some chains /\ Forall2 (fun h c => chain_of g h = Some c) l chains.
Proof.
  induction l as [|h l IH]; intros H; [exists []; split; [reflexivity|constructor]|].
  destruct (H h) as [c Hc]; [left; reflexivity|]. destruct IH as (chains & E & F); [intros; apply H; right; assumption|].
  exists (c :: chains). cbn [chains_of]. rewrite Hc, E. split; [reflexivity|]. constructor; assumption.
Qed.

Section Order.
  Variable g : graph.
  Variable nodes : list nat.
  Hypothesis Hg : graph_ok g nodes.
  Variable l : list nat.
  Hypothesis Hl : NoDup l.
  Hypothesis Hh : forall h, In h l <-> is_head g nodes h.
  Hypothesis Ht : topological (prerequisite g) l.
  Let Hwf := graph_chains g nodes Hg.

  Lemma chain_in h c : is_head g nodes h -> chain_of g h = Some c -> NoDup c /\ (forall v, In v c <-> in_chain g h v) /\
    (forall u v, comes_before c u v <-> in_chain g h u /\ path (inseparable g) u v).
  Proof.
    intros H E. destruct (inseparable_chain_correct g h Hwf (proj2 H)) as (c' & E' & R). assert (c' = c) by congruence. subst. exact R.
  Qed.
  Lemma in_chain_nodes h v : In h nodes -> in_chain g h v -> In v nodes.
  Proof.
    intros H P. apply path0_last in P as [<-|(p & _ & e & He & _ & _ & <-)]; [exact H|]. apply (gk_closed _ _ Hg e He).
  Qed.

  Lemma order_chains : exists chains, chains_of g l = Some chains /\ NoDup (concat chains) /\ Permutation (concat chains) nodes /\
    (forall e, In e (g_edges g) -> comes_before (concat chains) (e_from e) (e_to e)) /\
    (forall c, In c chains <-> exists h, is_head g nodes h /\ chain_of g h = Some c).
  Proof.
    destruct (chains_of_spec g l) as (chains & E & F).
    { intros h H. apply Hh in H. destruct (inseparable_chain_correct g h Hwf (proj2 H)) as (c & Ec & _). eauto. }
    exists chains. split; [exact E|].
    assert (Hin : forall c, In c chains <-> exists h, is_head g nodes h /\ chain_of g h = Some c).
    { intros c. split.
      - intros H. destruct (forall2_in_r _ _ _ _ F H) as (h & H1 & H2). apply Hh in H1. eauto.
      - intros (h & H1 & H2). apply Hh in H1. destruct (forall2_in_l _ _ _ _ F H1) as (c' & H3 & H4).
        assert (c' = c) by congruence. subst. exact H3. }
    assert (Hdisj : forall l' ch', (forall h, In h l' -> is_head g nodes h) -> NoDup l' -> Forall2 (fun h c => chain_of g h = Some c) l' ch' ->
        NoDup (concat ch') /\ forall v, In v (concat ch') <-> exists h, In h l' /\ in_chain g h v).
    { intros l' ch' Hhd Hnd F'. revert Hhd Hnd. induction F' as [|h c l' ch' Ec F' IH]; intros Hhd Hnd; simpl.
      - split; [constructor|]. intros v. split; [intros []|intros (h & [] & _)].
      - inversion Hnd; subst. destruct IH as [I1 I2]; [intros; apply Hhd; right; assumption|assumption|].
        assert (Hhh := Hhd h (or_introl eq_refl)). destruct (chain_in h c Hhh Ec) as (C1 & C2 & _). split.
        + apply nodup_app_i; [exact C1|exact I1|]. intros v Hv1 Hv2. apply C2 in Hv1. apply I2 in Hv2 as (h' & Hh' & Hv2).
          assert (Hhh' := Hhd h' (or_intror Hh')).
          assert (h = h') by (eapply (head_unique g Hwf h h' v); [apply Hhh|apply Hhh'|exact Hv1|exact Hv2]). subst. contradiction.
        + intros v. rewrite in_app_iff, C2, I2. split.
          * intros [H|(h' & H & H')]; [exists h; auto|exists h'; auto].
          * intros (h' & [<-|H] & H'); [auto|]. right. eauto. }
    destruct (Hdisj l chains) as [Hnc Hic]; [intros h H; apply Hh; exact H|exact Hl|exact F|].
    split; [exact Hnc|]. split; [|split; [|exact Hin]].
    - apply NoDup_Permutation; [exact Hnc|apply Hg|]. intros v. rewrite Hic. split.
      + intros (h & H1 & H2). apply Hh in H1. eapply in_chain_nodes; [apply H1|exact H2].
      + intros Hv. destruct (has_head g Hwf nodes (gk_closed _ _ Hg) v Hv) as (h & H1 & H2). exists h. rewrite Hh. auto.
    - intros e He. destruct (gk_closed _ _ Hg e He) as [Hu Hv].
      destruct (has_head g Hwf nodes (gk_closed _ _ Hg) _ Hu) as (hu & Hu1 & Hu2).
      destruct (has_head g Hwf nodes (gk_closed _ _ Hg) _ Hv) as (hv & Hv1 & Hv2).
      assert (Hdep : depends_on g (e_from e) (e_to e)) by (exists e; split; [exact He|]; split; [apply (gk_types _ _ Hg e He)|auto]).
      destruct (Nat.eq_dec hu hv) as [<-|Hne].
      + apply Hh in Hu1 as Hul. destruct (forall2_in_l _ _ _ _ F Hul) as (c & Hc1 & Hc2). destruct (chain_in hu c Hu1 Hc2) as (C1 & C2 & C3).
        assert (Hb : comes_before c (e_from e) (e_to e)).
        { apply C2 in Hu2, Hv2. destruct (Nat.eq_dec (e_from e) (e_to e)) as [Eq|Nq].
          - exfalso. apply (gk_acyclic _ _ Hg (e_to e)). apply t_step. rewrite <- Eq at 1. exact Hdep.
          - destruct (comes_before_total c _ _ Hu2 Hv2 Nq) as [H|H]; [exact H|]. exfalso. apply C3 in H as [_ H].
            apply (gk_acyclic _ _ Hg (e_from e)). eapply t_trans; [apply t_step; exact Hdep|].
            eapply path_incl; [|exact H]. intros a b (e' & He' & Hi & Hf & Hto). exists e'. rewrite Hi. auto. }
        apply in_split in Hc1 as (p & q & ->). rewrite concat_app. simpl. apply comes_before_app_r. apply comes_before_app_l. exact Hb.
      + assert (Hb : comes_before l hu hv).
        { apply Ht; [|apply Hh; exact Hu1|apply Hh; exact Hv1]. split; [exact Hne|]. eauto. }
        destruct Hb as (p & q & r & El). clear -F El Hu2 Hv2 Hu1 Hv1 Hg Hwf.
        assert (Hex : forall l1 l2 ch, Forall2 (fun h c => chain_of g h = Some c) (l1 ++ l2) ch ->
                  exists c1 c2, ch = c1 ++ c2 /\ Forall2 (fun h c => chain_of g h = Some c) l1 c1 /\ Forall2 (fun h c => chain_of g h = Some c) l2 c2).
        { intros l1 l2 ch H. apply Forall2_app_inv_l in H as (c1 & c2 & H1 & H2 & ->). eauto. }
        rewrite El in F. apply Hex in F as (c1 & c2 & -> & _ & F1). inversion F1 as [|? cu ? c3 Ecu F3]; subst.
        apply Hex in F3 as (c4 & c5 & -> & _ & F4). inversion F4 as [|? cv ? c6 Ecv F6]; subst.
        rewrite !concat_app. simpl. rewrite concat_app. simpl. apply comes_before_app_r. apply comes_before_app_lr.
        * apply (chain_in hu cu Hu1 Ecu). exact Hu2.
        * apply in_or_app. right. apply in_or_app. left. apply (chain_in hv cv Hv1 Ecv). exact Hv2.
  Qed.
End Order.

(** What is needed of a prioritization: it answers a reordering of the head nodes that
    respects the prerequisites, when given one. *)
Definition prioritizes (g : graph) (nodes : list nat) (prioritize : list nat -> (nat -> list nat) -> option (list nat)) : Prop :=
  forall order parent_ids, NoDup order -> (forall h, In h order <-> is_head g nodes h) ->
    (forall h p, In h order -> (In p (parent_ids h) <-> In p order /\ prerequisite g p h)) ->
    topological (prerequisite g) order ->
    exists l, prioritize order parent_ids = Some l /\ Permutation l order /\ topological (prerequisite g) l.

Lemma schedule_with_cache_spec {T} g nodes prioritize (build : list nat -> outcome (sched * T)) :
  graph_ok g nodes -> prioritizes g nodes prioritize ->
  (schedule_with_cache g nodes prioritize build = CircularGraph /\ chains_cyclic g nodes) \/
  exists l chains, schedule_with_cache g nodes prioritize build =
      match build l with Done (sd, s) => Scheduled sd s | NoContractor => NotEnoughWorkers | Crash => InternalError end /\
    (forall h, In h l <-> is_head g nodes h) /\
    chains_of g l = Some chains /\ NoDup (concat chains) /\ Permutation (concat chains) nodes /\
    (forall e, In e (g_edges g) -> comes_before (concat chains) (e_from e) (e_to e)) /\
    (forall c, In c chains <-> exists h, is_head g nodes h /\ chain_of g h = Some c) /\ (length l <= length nodes)%nat.
Proof.
  intros Hg Hp. unfold schedule_with_cache.
  destruct (head_nodes_correct g nodes (gk_nodup _ _ Hg) (gk_closed _ _ Hg) (graph_chains g nodes Hg)) as (_ & [H|(-> & Hc)]); [right|left; auto].
  destruct H as (order & ps & cs & -> & H1 & H2 & H3 & H4 & _).
  destruct (Hp order (ids_of ps) H1 H2 H4 H3) as (l & -> & P & T').
  assert (Hl : NoDup l) by (eapply Permutation_NoDup; [apply Permutation_sym; exact P|exact H1]).
  assert (Hh : forall h, In h l <-> is_head g nodes h).
  { intros h. rewrite <- H2. split; apply Permutation_in; [exact P|apply Permutation_sym; exact P]. }
  destruct (order_chains g nodes Hg l Hl Hh T') as (chains & E & O1 & O2 & O3 & O4).
  exists l, chains. repeat (split; [assumption || reflexivity|]). apply NoDup_incl_length; [exact Hl|]. intros h H. apply Hh in H. apply H.
Qed.

Lemma heft_prioritizes g nodes est prio : graph_ok g nodes -> estimator_ok est -> priorities_ok g nodes prio ->
  prioritizes g nodes (fun order parent_ids => heft_order g est prio parent_ids order).
Proof.
  intros Hg He Hp order parent_ids H1 H2 H3 H4.
  assert (Hab : forall x y, above order parent_ids x y <-> In x order /\ In y order /\ prerequisite g x y).
  { intros x y. unfold above. split.
    - intros (Hx & Hy & H). apply (H3 y x Hy) in H. tauto.
    - intros (Hx & Hy & H). split; [exact Hx|]. split; [exact Hy|]. apply H3; auto. }
  destruct (heft_order_correct g est prio parent_ids order He (graph_chains g nodes Hg)) as (l & E & P & T & _).
  - intros n Hn. apply H2 in Hn. apply Hn.
  - exact H1.
  - intros x y Hxy Hx Hy. apply H4; auto. apply Hab. exact Hxy.
  - intros x y Hxy. apply Hab in Hxy as (Hx & Hy & H). apply H2 in Hx, Hy. apply Hp; assumption.
  - exists l. split; [exact E|]. split; [exact P|]. intros x y Hxy Hx Hy. apply T; auto. apply Hab.
    rewrite <- (Permutation_in' eq_refl P x) || idtac. split; [eapply Permutation_in; eauto|]. split; [eapply Permutation_in; eauto|exact Hxy].
Qed.

Lemma topological_prioritizes g nodes prio shuffle : graph_ok g nodes -> (forall l, Permutation (shuffle l) l) -> priorities_ok g nodes prio ->
  prioritizes g nodes (fun order parent_ids => topological_sort prio parent_ids shuffle order).
Proof.
  intros Hg Hsh Hp order parent_ids H1 H2 H3 H4.
  assert (Hab : forall x y, before parent_ids order x y <-> In x order /\ In y order /\ prerequisite g x y).
  { intros x y. unfold before. split.
    - intros (Hne & Hx & Hy & H). apply (H3 y x Hy) in H. tauto.
    - intros (Hx & Hy & H). split; [apply H|]. split; [exact Hx|]. split; [exact Hy|]. apply H3; auto. }
  destruct (topological_order_correct prio parent_ids shuffle Hsh order H1) as [(l & E & _ & P & _ & T)|(_ & x & Hx)].
  - intros x y Hxy. apply Hab in Hxy as (Hx & Hy & H). apply H2 in Hx, Hy. apply Hp; assumption.
  - exists l. split; [exact E|]. split; [exact P|]. intros x y Hxy Hx Hy. apply T; auto. apply Hab.
    split; [eapply Permutation_in; eauto|]. split; [eapply Permutation_in; eauto|exact Hxy].
  - exfalso. assert (Ha : acyclic (before parent_ids order)).
    { apply (topological_acyclic _ order H1).
      - intros a b Hab' Ha Hb. apply H4; auto. apply Hab. exact Hab'.
      - intros a b Hab'. apply Hab in Hab'. tauto. }
    apply (Ha x Hx).
Qed.

(** ** The schedules *)
Lemma feasible_of g cs spec nodes l chains sd :
  graph_ok g nodes -> (forall h, In h l <-> is_head g nodes h) ->
  Permutation (concat chains) nodes ->
  (forall c, In c chains <-> exists h, is_head g nodes h /\ chain_of g h = Some c) ->
  map fst sd = rev (concat chains) ->
  (forall n w, In (n, w) sd -> 0 <= sw_start w <= sw_finish w /\ sw_finish w <= TIME_INF) ->
  (forall c u v wu wv, In c chains -> comes_before c u v -> In (u, wu) sd -> In (v, wv) sd ->
       sw_finish wu <= sw_start wv /\ sw_team wu = sw_team wv /\ sw_contractor wu = sw_contractor wv) ->
  (forall hd r n w, In (hd :: r) chains -> In n (hd :: r) -> In (n, w) sd -> staffed g cs spec hd w) ->
  (forall ct k n t, In ct cs -> In (k, n) (ct_workers ct) -> busy (schedule_bookings sd) (ct_id ct, k) t <= n) ->
  feasible g cs spec nodes sd.
Proof.
  intros Hg Hh HP Hc F1 F2 F3 F4 F5.
  assert (Hchain : forall h, is_head g nodes h -> exists r, chain_of g h = Some (h :: r) /\ In (h :: r) chains).
  { intros h H. destruct (inseparable_chain_correct g h (graph_chains g nodes Hg) (proj2 H)) as (c & E & _).
    assert (E' := E). apply chain_head in E' as [r ->]. exists r. split; [exact E|]. apply Hc. eauto. }
  constructor.
  - rewrite F1. eapply Permutation_trans; [apply Permutation_sym, Permutation_rev|exact HP].
  - exact F2.
  - intros u v wu wv Hi Hu Hv. assert (Hi' := Hi). destruct Hi' as (e & He & _ & Ef & Et).
    destruct (gk_closed _ _ Hg e He) as [Hun _]. rewrite Ef in Hun.
    destruct (has_head g (graph_chains g nodes Hg) nodes (gk_closed _ _ Hg) u Hun) as (h & Hh1 & Hh2).
    destruct (Hchain h Hh1) as (r & E & Hin). apply (F3 (h :: r) u v); auto.
    apply (chain_in g nodes Hg h (h :: r) Hh1 E). split; [exact Hh2|apply t_step; exact Hi].
  - intros h n w Hh1 Hin Hw. destruct (Hchain h Hh1) as (r & E & Hr). apply (F4 h r n w Hr); [|exact Hw].
    apply (chain_in g nodes Hg h (h :: r) Hh1 E). exact Hin.
  - exact F5.
Qed.

(** *** HEFTBetweenScheduler and TopologicalScheduler *)
Definition inputs_ok (g : graph) (est : nat -> list worker -> Z) (cs : list contractor) (spec : nat -> work_spec) (apt : Z) : Prop :=
  contractors_ok cs /\ estimator_ok est /\ (forall n, reqs_ok (reqs_of g n)) /\ (forall n, 0 <= volume_of g n) /\
  (forall n, spec_ok (spec n)) /\ 0 <= apt <= TIME_INF.

Lemma momentum_pipeline g nodes est prioritize optimize cs spec apt sd s :
  graph_ok g nodes -> prioritizes g nodes prioritize -> inputs_ok g est cs spec apt ->
  (forall n c sd s, optimizer_ok (optimize n c sd s)) -> Z.of_nat (length nodes) < TIME_INF ->
  schedule_with_cache g nodes prioritize (momentum_build g est optimize cs spec apt) = Scheduled sd s ->
  feasible g cs spec nodes sd /\
  (forall e wu wv, In e (g_edges g) -> In (e_from e, wu) sd -> In (e_to e, wv) sd ->
     (forall h, is_head g nodes h -> in_chain g h (e_from e) -> ~ in_chain g h (e_to e)) ->
     (forall h, is_head g nodes h -> in_chain g h (e_to e) -> sp_time (spec h) = None \/ e_to e = h) ->
     tadd (sw_finish wu) (e_lag e) <= sw_start wv).
Proof.
  intros Hg Hp (H1 & H2 & H3 & H4 & H5 & H6) Hopt Hlen H.
  destruct (schedule_with_cache_spec g nodes prioritize (momentum_build g est optimize cs spec apt) Hg Hp) as [[E _]|(l & chains & E & Hh & C1 & C2 & C3 & C4 & C5 & C6)];
    rewrite E in H; [discriminate|].
  destruct (momentum_build g est optimize cs spec apt l) as [[sd' s']| |] eqn:Eb; try discriminate. injection H as -> ->.
  destruct (momentum_schedule_feasible g est optimize cs spec apt l chains sd s H1 H2 Hopt H3 H4 H5 H6 C1 C2 ltac:(lia) (fun e He _ _ => C4 e He) Eb)
    as (F1 & F2 & F3 & F4 & F5 & F6).
  split; [eapply feasible_of; eauto|]. intros e wu wv He Hu Hv Hne Hpin. apply (F3 e wu wv He Hu Hv).
  - intros (c & Hc & Hcu & Hcv). apply C5 in Hc as (h & Hh1 & Ec). destruct (chain_in g nodes Hg h c Hh1 Ec) as (_ & M & _).
    apply M in Hcu, Hcv. apply (Hne h Hh1 Hcu Hcv).
  - destruct (gk_closed _ _ Hg e He) as [_ Hvn].
    destruct (has_head g (graph_chains g nodes Hg) nodes (gk_closed _ _ Hg) _ Hvn) as (h & Hh1 & Hh2).
    destruct (inseparable_chain_correct g h (graph_chains g nodes Hg) (proj2 Hh1)) as (c & Ec & _ & M & _).
    assert (Ec' := Ec). apply chain_head in Ec' as [r ->]. exists h, r. split; [apply C5; eauto|]. split; [apply M; exact Hh2|]. auto.
Qed.

(** The sum of all times stays below the representable maximum. *)
Definition times_fit (g : graph) (est : nat -> list worker -> Z) (cs : list contractor)
           (spec : nat -> work_spec) (nodes : list nat) (apt : Z) : Prop :=
  exists D Lg, (0 <= D /\ estimates_bounded g est cs spec D) /\ (0 <= Lg /\ forall e, In e (g_edges g) -> e_lag e <= Lg) /\
    2 * (apt + Z.of_nat (length nodes) * (D + Lg)) < TIME_INF.
(** No allowed contractor has enough workers for the work. *)
Definition nobody_able (g : graph) (cs : list contractor) (spec : nat -> work_spec) (n : nat) : Prop :=
  forall ct, In ct cs -> (sp_contractors (spec n) = [] \/ In (ct_id ct) (sp_contractors (spec n))) -> ~ able ct (u_reqs (g_unit g n)).

Lemma momentum_pipeline_total g nodes est prioritize optimize cs spec apt :
  graph_ok g nodes -> prioritizes g nodes prioritize -> inputs_ok g est cs spec apt ->
  (forall n c sd s, optimizer_ok (optimize n c sd s)) -> optimizer_answers (momentum_times g est) optimize (reqs_of g) cs spec apt -> Z.of_nat (length nodes) < TIME_INF ->
  times_fit g est cs spec nodes apt -> (forall n, sp_time (spec n) = None) -> (forall n, spec_fits cs (reqs_of g n) (spec n)) ->
  (forall n, u_service (g_unit g n) = true -> reqs_of g n = []) ->
  (forall h m, is_head g nodes h -> in_chain g h m -> map r_kind (reqs_of g m) = map r_kind (reqs_of g h)) ->
  let r := schedule_with_cache g nodes prioritize (momentum_build g est optimize cs spec apt) in
  (exists sd s, r = Scheduled sd s) \/ (r = CircularGraph /\ chains_cyclic g nodes) \/
  (r = NotEnoughWorkers /\ exists n, is_head g nodes n /\ nobody_able g cs spec n).
Proof.
  intros Hg Hp (H1 & H2 & H3 & H4 & H5 & H6) Hopt Hans Hlen (D & Lg & HD & HL & Hfit) Hst Hsf Hsv Hsh r.
  destruct (schedule_with_cache_spec g nodes prioritize (momentum_build g est optimize cs spec apt) Hg Hp) as [[E Hc]|(l & chains & E & Hh & C1 & C2 & C3 & C4 & C5 & C6)];
    unfold r; rewrite E; [right; left; auto|].
  assert (Hle : length (concat chains) = length nodes) by (apply Permutation_length; exact C3).
  assert (Hsh' : forall n c m, chain_of g n = Some c -> In m c -> map r_kind (reqs_of g m) = map r_kind (reqs_of g n)).
  { intros n c m Hc Hm. destruct (inseparable_parent g n) as [q|] eqn:Eq.
    - unfold chain_of in Hc. rewrite Eq in Hc. destruct (inseparable_son g n); injection Hc as <-; destruct Hm as [<-|[]]; reflexivity.
    - destruct (in_dec Nat.eq_dec n nodes) as [Hn|Hn].
      + assert (Hhd : is_head g nodes n) by (split; [exact Hn|apply parent_none; exact Eq]).
        apply Hsh; [exact Hhd|]. apply (chain_in g nodes Hg n c Hhd Hc). exact Hm.
      + destruct (inseparable_son g n) as [b|] eqn:Eb.
        * exfalso. apply son_some in Eb as (e & He & _ & Ef & _). apply Hn. rewrite <- Ef. apply (gk_closed _ _ Hg e He).
        * unfold chain_of in Hc. rewrite Eb in Hc. injection Hc as <-. destruct Hm as [<-|[]]. reflexivity. }
  destruct (momentum_schedule_never_crashes g est optimize cs spec apt D Lg l chains H1 H2 Hopt Hans H3 H4 H5 H6 C1 C2 (fun e He _ _ => C4 e He) HD HL)
    as [(sd & s & Eb)|(Eb & n & Hn & Hno)]; try assumption.
  - rewrite Hle. exact Hfit.
  - lia.
  - rewrite Eb. left. eauto.
  - rewrite Eb. right. right. split; [reflexivity|]. exists n. split; [apply Hh; exact Hn|exact Hno].
Qed.

(** HEFTBetweenScheduler: every schedule it answers is feasible, and every dependency
    between works of different chains is respected with its lag, unless the dependent
    work sits inside a chain with an assigned time. *)
Theorem heft_between_feasible :
  forall g nodes est prio optimize cs spec apt sd s,
    graph_ok g nodes -> priorities_ok g nodes prio -> inputs_ok g est cs spec apt ->
    (forall n c sd s, optimizer_ok (optimize n c sd s)) -> Z.of_nat (length nodes) < TIME_INF ->
    heft_between g nodes est prio optimize cs spec apt = Scheduled sd s ->
    feasible g cs spec nodes sd /\
    (forall e wu wv, In e (g_edges g) -> In (e_from e, wu) sd -> In (e_to e, wv) sd ->
       (forall h, is_head g nodes h -> in_chain g h (e_from e) -> ~ in_chain g h (e_to e)) ->
       (forall h, is_head g nodes h -> in_chain g h (e_to e) -> sp_time (spec h) = None \/ e_to e = h) ->
       tadd (sw_finish wu) (e_lag e) <= sw_start wv).
Proof.
  intros g nodes est prio optimize cs spec apt sd s Hg Hp Hi Hopt Hlen H.
  eapply momentum_pipeline; [exact Hg|apply heft_prioritizes; [exact Hg|apply Hi|exact Hp]|exact Hi|exact Hopt|exact Hlen|exact H].
Qed.
Print Assumptions heft_between_feasible.

(** ... and it answers a schedule whenever every work has an allowed contractor with
    enough workers and the chains can be ordered. *)
Theorem heft_between_total :
  forall g nodes est prio optimize cs spec apt,
    graph_ok g nodes -> priorities_ok g nodes prio -> inputs_ok g est cs spec apt ->
    (forall n c sd s, optimizer_ok (optimize n c sd s)) -> optimizer_answers (momentum_times g est) optimize (reqs_of g) cs spec apt -> Z.of_nat (length nodes) < TIME_INF ->
    times_fit g est cs spec nodes apt -> (forall n, sp_time (spec n) = None) -> (forall n, spec_fits cs (reqs_of g n) (spec n)) ->
    (forall n, u_service (g_unit g n) = true -> reqs_of g n = []) ->
    (forall h m, is_head g nodes h -> in_chain g h m -> map r_kind (reqs_of g m) = map r_kind (reqs_of g h)) ->
    let r := heft_between g nodes est prio optimize cs spec apt in
    (exists sd s, r = Scheduled sd s) \/ (r = CircularGraph /\ chains_cyclic g nodes) \/
    (r = NotEnoughWorkers /\ exists n, is_head g nodes n /\ nobody_able g cs spec n).
Proof.
  intros g nodes est prio optimize cs spec apt Hg Hp Hi Hopt Hans Hlen Hfit Hst Hsf Hsv Hsh.
  apply momentum_pipeline_total; try assumption. apply heft_prioritizes; [exact Hg|apply Hi|exact Hp].
Qed.
Print Assumptions heft_between_total.

Theorem topological_scheduler_feasible :
  forall g nodes est prio shuffle optimize cs spec apt sd s,
    graph_ok g nodes -> priorities_ok g nodes prio -> (forall l, Permutation (shuffle l) l) -> inputs_ok g est cs spec apt ->
    (forall n c sd s, optimizer_ok (optimize n c sd s)) -> Z.of_nat (length nodes) < TIME_INF ->
    topological_scheduler g nodes est prio shuffle optimize cs spec apt = Scheduled sd s ->
    feasible g cs spec nodes sd /\
    (forall e wu wv, In e (g_edges g) -> In (e_from e, wu) sd -> In (e_to e, wv) sd ->
       (forall h, is_head g nodes h -> in_chain g h (e_from e) -> ~ in_chain g h (e_to e)) ->
       (forall h, is_head g nodes h -> in_chain g h (e_to e) -> sp_time (spec h) = None \/ e_to e = h) ->
       tadd (sw_finish wu) (e_lag e) <= sw_start wv).
Proof.
  intros g nodes est prio shuffle optimize cs spec apt sd s Hg Hp Hsh Hi Hopt Hlen H.
  eapply momentum_pipeline; [exact Hg|apply topological_prioritizes; [exact Hg|exact Hsh|exact Hp]|exact Hi|exact Hopt|exact Hlen|exact H].
Qed.
Print Assumptions topological_scheduler_feasible.

(** *** HEFTScheduler *)
(** All dependencies are respected, those inside chains too. *)
Theorem heft_end_feasible :
  forall g nodes est prio optimize cs spec apt sd s,
    graph_ok g nodes -> priorities_ok g nodes prio -> inputs_ok g est cs spec apt ->
    (forall n c sd s, optimizer_ok (optimize n c sd s)) -> (forall n, spec_fits cs (reqs_of g n) (spec n)) ->
    heft_end g nodes est prio optimize cs spec apt = Scheduled sd s ->
    feasible g cs spec nodes sd /\
    (forall e wu wv, In e (g_edges g) -> In (e_from e, wu) sd -> In (e_to e, wv) sd ->
       tadd (sw_finish wu) (e_lag e) <= sw_start wv).
Proof.
  intros g nodes est prio optimize cs spec apt sd s Hg Hp Hi Hopt Hsf H. unfold heft_end in H.
  assert (Hpr := heft_prioritizes g nodes est prio Hg (proj1 (proj2 Hi)) Hp).
  destruct Hi as (H1 & H2 & H3 & H4 & H5 & H6).
  destruct (schedule_with_cache_spec g nodes _ (jit_build g est optimize cs spec apt) Hg Hpr) as [[E _]|(l & chains & E & Hh & C1 & C2 & C3 & C4 & C5 & C6)];
    rewrite E in H; [discriminate|].
  destruct (jit_build g est optimize cs spec apt l) as [[sd' s']| |] eqn:Eb; try discriminate. injection H as -> ->.
  destruct (jit_schedule_feasible g est optimize cs spec apt l chains sd s H1 H2 Hopt H3 H4 H5 Hsf H6 C1 C2 (fun e He _ _ => C4 e He) Eb)
    as (F1 & F2 & F3 & F4 & F5 & F6).
  split; [eapply feasible_of; eauto|]. exact F3.
Qed.
Print Assumptions heft_end_feasible.

Theorem heft_end_total :
  forall g nodes est prio optimize cs spec apt,
    graph_ok g nodes -> priorities_ok g nodes prio -> inputs_ok g est cs spec apt ->
    (forall n c sd s, optimizer_ok (optimize n c sd s)) -> optimizer_answers (jit_find g est) optimize (reqs_of g) cs spec apt -> (forall n, spec_fits cs (reqs_of g n) (spec n)) ->
    times_fit g est cs spec nodes apt -> (forall n, sp_time (spec n) = None) -> inseparable_lags_ok g ->
    let r := heft_end g nodes est prio optimize cs spec apt in
    (exists sd s, r = Scheduled sd s) \/ (r = CircularGraph /\ chains_cyclic g nodes) \/
    (r = NotEnoughWorkers /\ exists n, is_head g nodes n /\ nobody_able g cs spec n).
Proof.
  intros g nodes est prio optimize cs spec apt Hg Hp Hi Hopt Hans Hsf (D & Lg & HD & HL & Hfit) Hst Hlg r. unfold r, heft_end.
  assert (Hpr := heft_prioritizes g nodes est prio Hg (proj1 (proj2 Hi)) Hp).
  destruct Hi as (H1 & H2 & H3 & H4 & H5 & H6).
  destruct (schedule_with_cache_spec g nodes _ (jit_build g est optimize cs spec apt) Hg Hpr) as [[E Hc]|(l & chains & E & Hh & C1 & C2 & C3 & C4 & C5 & C6)];
    rewrite E; [right; left; auto|].
  assert (Hle : length (concat chains) = length nodes) by (apply Permutation_length; exact C3).
  destruct (jit_schedule_never_crashes g est optimize cs spec apt D Lg l chains H1 H2 Hopt Hans H3 H4 H5 Hsf H6)
    as [(sd & s & Eb)|(Eb & n & Hn & Hno)]; try assumption.
  - intros e e' He He' Hi1 Hi2 Ht. apply (gk_single_parent _ _ Hg _ _ (e_to e)); [exists e|exists e']; auto.
  - intros n Hn. apply parent_none. apply Hh in Hn. apply Hn.
  - rewrite Hle. exact Hfit.
  - rewrite Eb. left. eauto.
  - rewrite Eb. right. right. split; [reflexivity|]. exists n. split; [apply Hh; exact Hn|exact Hno].
Qed.
Print Assumptions heft_end_total.

(** ** A concrete case *)
Definition px_nodes : list nat := [0; 1; 2; 3; 4; 5]%nat.
Definition times (sd : sched) : list (nat * Z * Z) := map (fun x => (fst x, sw_start (snd x), sw_finish (snd x))) (rev sd).
Lemma px_graph_ok : graph_ok sx_graph px_nodes.
Proof.
  constructor.
  - repeat constructor; simpl; intuition lia.
  - intros e H. simpl in H. repeat destruct H as [<-|H]; try tauto; simpl; intuition lia.
  - intros e H. simpl in H. repeat destruct H as [<-|H]; try tauto; reflexivity.
  - intros x x' y (e & H & Hi & <- & <-) (e' & H' & Hi' & <- & E). simpl in H, H'.
    repeat destruct H as [<-|H]; try tauto; try discriminate; repeat destruct H' as [<-|H']; try tauto; try discriminate.
  - intros x y y' (e & H & Hi & <- & <-) (e' & H' & Hi' & E & <-). simpl in H, H'.
    repeat destruct H as [<-|H]; try tauto; try discriminate; repeat destruct H' as [<-|H']; try tauto; try discriminate.
  - assert (Hlt : forall x y, path (depends_on sx_graph) x y -> (x < y)%nat).
    { intros x y H. induction H as [x y (e & H & _ & <- & <-)|]; [|lia]. simpl in H.
      repeat destruct H as [<-|H]; try tauto; simpl; lia. }
    intros x H. apply Hlt in H. lia.
Qed.
Example pipeline_hypotheses :
  graph_ok sx_graph px_nodes /\ priorities_ok sx_graph px_nodes (fun _ => 1) /\
  inputs_ok sx_graph sx_est sx_contractors sx_spec 0 /\ times_fit sx_graph sx_est sx_contractors sx_spec px_nodes 0 /\
  (forall n c sd s, optimizer_ok (sx_optimize n c sd s)) /\ (forall n c sd s, optimizer_ok (jx_optimize n c sd s)) /\
  optimizer_answers (momentum_times sx_graph sx_est) sx_optimize (reqs_of sx_graph) sx_contractors sx_spec 0 /\
  optimizer_answers (jit_find sx_graph sx_est) jx_optimize (reqs_of sx_graph) sx_contractors sx_spec 0 /\
  Z.of_nat (length px_nodes) < TIME_INF /\
  (forall n, sp_time (sx_spec n) = None) /\ (forall n, spec_fits sx_contractors (reqs_of sx_graph n) (sx_spec n)) /\
  (forall n, u_service (g_unit sx_graph n) = true -> reqs_of sx_graph n = []) /\
  (forall h m, is_head sx_graph px_nodes h -> in_chain sx_graph h m -> map r_kind (reqs_of sx_graph m) = map r_kind (reqs_of sx_graph h)) /\
  inseparable_lags_ok sx_graph.
Proof.
  destruct sx_hypotheses as (H1 & H2 & H3 & H3' & H4 & H5 & H6 & H7 & H8 & H9 & H10 & H11 & H12 & H13 & H14 & H15 & H16 & H17 & H18).
  split; [exact px_graph_ok|]. split; [intros x y _ _ _; lia|]. split; [repeat (split; [assumption|]); exact H7|].
  split. { exists 15, 2. split; [exact H12|]. split; [exact H13|]. change TIME_INF with 2000000000. simpl. lia. }
  split; [exact H3|]. split; [intros; exact min_optimizer_ok|]. split; [exact H3'|]. split; [apply min_optimizer_answers|].
  split; [change TIME_INF with 2000000000; simpl; lia|]. repeat (split; [assumption|]). split.
  - intros h m Hh Hm. destruct (inseparable_chain_correct _ h (graph_chains _ _ px_graph_ok) (proj2 Hh)) as (c & Ec & _ & M & _).
    apply (H18 h c m Ec). apply M. exact Hm.
  - apply jx_hypotheses.
Qed.
Example pipeline_schedules :
  match heft_between sx_graph px_nodes sx_est (fun _ => 1) sx_optimize sx_contractors sx_spec 0 with
  | Scheduled sd _ => times sd | _ => [] end
    = [(0%nat, 0, 0); (1%nat, 0, 11); (2%nat, 11, 23); (3%nat, 2, 10); (4%nat, 23, 32); (5%nat, 32, 32)] /\
  match heft_end sx_graph px_nodes sx_est (fun _ => 1) jx_optimize sx_contractors sx_spec 0 with
  | Scheduled sd _ => times sd | _ => [] end
    = [(0%nat, 0, 0); (1%nat, 0, 11); (2%nat, 11, 23); (3%nat, 2, 10); (4%nat, 23, 32); (5%nat, 32, 32)] /\
  match topological_scheduler sx_graph px_nodes sx_est (fun _ => 1) (fun l => l) sx_optimize sx_contractors sx_spec 0 with
  | Scheduled sd _ => times sd | _ => [] end
    = [(0%nat, 0, 0); (1%nat, 0, 11); (2%nat, 11, 23); (3%nat, 2, 10); (4%nat, 23, 32); (5%nat, 32, 32)].
Proof. vm_compute. repeat split; reflexivity. Qed.

(** ** Findings *)
(** The priorities of check_and_correct_priorities respect the dependencies between works
    but not those between chains, and then both HEFT schedulers start a work before its
    prerequisite ends: the chain 1 - 2 goes first for the priority of 1, and work 2 starts
    at 11 although it depends on work 3, which ends at 13. *)
Definition py_graph : graph :=
  Gr [Ed 0 1 0 FS; Ed 1 2 0 IFS; Ed 0 3 0 FS; Ed 3 2 0 FS; Ed 2 4 0 FS]
     (fun n => match n with 1 | 2 | 3 => WU false [Req 0 12 1 3] 10 | _ => WU true [] 0 end%nat).
Definition py_prio (n : nat) : Z := if Nat.ltb n 2 then 1 else 5.
Definition py_spec (n : nat) : work_spec := WSpec [] [] None false.
Theorem corrected_priorities_break_chains :
  (exists prio, check_and_correct 5 py_graph [0; 1; 2; 3; 4]%nat py_prio = Some prio /\
     (forall n, In n [0; 1; 2; 3; 4]%nat -> prio n = py_prio n)) /\
  (exists sd s, heft_between py_graph [0; 1; 2; 3; 4]%nat sx_est py_prio sx_optimize [Ct 0 [(0%nat, 3)]] py_spec 0 = Scheduled sd s /\
     times sd = [(0%nat, 0, 0); (1%nat, 0, 11); (2%nat, 11, 23); (3%nat, 0, 13); (4%nat, 23, 23)]) /\
  (exists sd s, heft_end py_graph [0; 1; 2; 3; 4]%nat sx_est py_prio jx_optimize [Ct 0 [(0%nat, 3)]] py_spec 0 = Scheduled sd s /\
     times sd = [(0%nat, 0, 0); (1%nat, 0, 11); (2%nat, 11, 23); (3%nat, 0, 13); (4%nat, 23, 23)]).
Proof.
  split; [|split].
  - eexists. split; [vm_compute; reflexivity|]. intros n [<-|[<-|[<-|[<-|[<-|[]]]]]]; reflexivity.
  - destruct (heft_between py_graph [0; 1; 2; 3; 4]%nat sx_est py_prio sx_optimize [Ct 0 [(0%nat, 3)]] py_spec 0) as [sd s| | |] eqn:E;
      [|exfalso; vm_compute in E; discriminate E ..].
    exists sd, s. split; [reflexivity|]. vm_compute in E. injection E as <- _. vm_compute. reflexivity.
  - destruct (heft_end py_graph [0; 1; 2; 3; 4]%nat sx_est py_prio jx_optimize [Ct 0 [(0%nat, 3)]] py_spec 0) as [sd s| | |] eqn:E;
      [|exfalso; vm_compute in E; discriminate E ..].
    exists sd, s. split; [reflexivity|]. vm_compute in E. injection E as <- _. vm_compute. reflexivity.
Qed.
Print Assumptions corrected_priorities_break_chains.

(** Edges of the start-start and finish-finish kinds constrain nothing: work 2 must not
    start before work 1 starts, which is 10 after the start work, but starts at once. *)
Definition pz_graph : graph :=
  Gr [Ed 0 1 10 FS; Ed 1 2 0 SS; Ed 0 2 0 FS; Ed 1 3 0 FS; Ed 2 3 0 FS]
     (fun n => match n with 1 | 2 => WU false [Req 0 12 1 3] 10 | _ => WU true [] 0 end%nat).
Theorem start_start_edges_ignored :
  exists sd s, heft_between pz_graph [0; 1; 2; 3]%nat sx_est (fun _ => 1) sx_optimize [Ct 0 [(0%nat, 3)]] py_spec 0 = Scheduled sd s /\
    In (1%nat, 10, 21) (times sd) /\ In (2%nat, 0, 12) (times sd).
Proof.
  destruct (heft_between pz_graph [0; 1; 2; 3]%nat sx_est (fun _ => 1) sx_optimize [Ct 0 [(0%nat, 3)]] py_spec 0) as [sd s| | |] eqn:E;
    [|exfalso; vm_compute in E; discriminate E ..].
  exists sd, s. split; [reflexivity|]. vm_compute in E. injection E as <- _. vm_compute. tauto.
Qed.
Print Assumptions start_start_edges_ignored.
