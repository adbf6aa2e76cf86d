(** C60-C62: the LFT schedulers. *)
From Coq Require Import ZArith QArith List Bool Lia Lqa Arith Relations Permutation ZifyBool ZifyNat.
From Verif Require Import TimeModel TimeProofs MomentumModel JITModel MomentumSpec MomentumHistory MomentumProofs JITHistory JITProofs
  GraphModel ScheduleModel ScheduleSpec TeamProofs ScheduleProofs ScheduleInv SchedulePoolProofs ScheduleSafe ScheduleTheorems JitScheduleInv
  JitScheduleSafe JitScheduleTheorems MomentumTeamProofs Digraph StableSort TopoModel TopoProofs TopoTheorems HeadModel HeadProofs HeadTheorems PriorityModel PriorityProofs
  PriorityTheorems PipelineModel PipelineTheorems SgsModel SgsSpec SgsSerial LftModel LftSpec LftProofs LftLoop.
Import ListNotations.
Local Open Scope Z_scope.

Lemma momentum_init_zero p x : In x (all_times (m_tl (momentum_init p))) -> x = 0.
Proof.
  intros Hx. unfold momentum_init in Hx. simpl in Hx. unfold all_times in Hx.
  rewrite map_map in Hx. simpl in Hx. apply in_concat in Hx as (l & Hl & Hx).
  apply in_map_iff in Hl as (y & <- & _). destruct Hx as [<-|[]]. reflexivity.
Qed.

(** ** Prioritization *)
Definition lft_prioritizes (g : graph) (nodes : list nat)
  (prioritize : list nat -> (nat -> list nat) -> (nat -> list nat) -> (nat -> Z) -> option (list nat)) : Prop :=
  forall order parent_ids child_ids dur, NoDup order -> order <> [] -> (forall h, In h order <-> is_head g nodes h) ->
    (forall h p, In h order -> (In p (parent_ids h) <-> In p order /\ prerequisite g p h)) ->
    (forall h c, In h order -> (In c (child_ids h) <-> In c order /\ prerequisite g h c)) ->
    topological (prerequisite g) order -> (forall h, In h order -> 1 <= dur h) ->
    exists l, prioritize order parent_ids child_ids dur = Some l /\ Permutation l order /\ topological (prerequisite g) l.

Section Prioritize.
  Variables (g : graph) (order : list nat) (parent_ids : nat -> list nat).
  Hypothesis H3 : forall h p, In h order -> (In p (parent_ids h) <-> In p order /\ prerequisite g p h).
  Lemma above_iff x y : above order parent_ids x y <-> In x order /\ In y order /\ prerequisite g x y.
  Proof.
    unfold above. split.
    - intros (Hx & Hy & H). apply (H3 y x Hy) in H. tauto.
    - intros (Hx & Hy & H). split; [exact Hx|]. split; [exact Hy|]. apply H3; auto.
  Qed.
  Lemma above_topological l : Permutation l order -> topological (above order parent_ids) l -> topological (prerequisite g) l.
  Proof.
    intros P T x y Hxy Hx Hy. apply T; auto. apply above_iff.
    split; [eapply Permutation_in; eauto|]. split; [eapply Permutation_in; eauto|exact Hxy].
  Qed.
End Prioritize.

Lemma lft_order_prioritizes g nodes prio : priorities_ok g nodes prio ->
  lft_prioritizes g nodes (fun order _ child_ids dur => lft_order prio child_ids dur order).
Proof.
  intros Hp order parent_ids child_ids dur H1 Hne H2 H3 H4 H5 H6.
  destruct (lft_order_correct prio parent_ids child_ids dur order Hne H1) as (l & E & P & T & _).
  - intros x y Hxy Hx Hy. apply H5; auto. apply (above_iff g order parent_ids H3) in Hxy. tauto.
  - intros x y Hxy. apply (above_iff g order parent_ids H3) in Hxy. apply H4; tauto.
  - exact H6.
  - intros x y Hxy. apply (above_iff g order parent_ids H3) in Hxy as (Hx & Hy & Hxy). apply Hp; [apply H2; exact Hx|apply H2; exact Hy|exact Hxy].
  - exists l. split; [exact E|]. split; [exact P|]. eapply above_topological; eauto.
Qed.

(** One work of the graph, its start, precedes all others: every other work depends on
    some work. *)
Definition has_start (g : graph) (nodes : list nat) : Prop :=
  exists s, forall n, In n nodes -> n <> s -> exists p, depends_on g p n.

Lemma start_unique g nodes : graph_ok g nodes -> has_start g nodes -> exists s, forall h, is_head g nodes h -> h <> s ->
  exists p, is_head g nodes p /\ prerequisite g p h.
Proof.
  intros Hg [s Hs]. exists s. intros h Hh Hne. destruct (Hs h (proj1 Hh) Hne) as (q & Hq).
  assert (Hqn : In q nodes) by (destruct Hq as (e & He & _ & <- & _); apply (gk_closed _ _ Hg e He)).
  destruct (has_head g (graph_chains g nodes Hg) nodes (gk_closed _ _ Hg) q Hqn) as (p & Hp1 & Hp2).
  exists p. split; [exact Hp1|]. split.
  - intros ->. apply (gk_acyclic _ _ Hg q). destruct (path0_path _ _ _ Hp2) as [<-|Hpath]; [apply t_step; exact Hq|].
    eapply t_trans; [apply t_step; exact Hq|]. eapply path_incl; [|exact Hpath].
    intros a b (e & He & Hi & Hf & Hto). exists e. rewrite Hi. auto.
  - exists q, h. split; [exact Hq|]. split; [exact Hp2|apply rt_refl].
Qed.

Lemma lft_randomized_prioritizes g nodes prio pick : graph_ok g nodes -> has_start g nodes -> priorities_ok g nodes prio ->
  (forall k l, l <> [] -> In (pick k l) l) ->
  lft_prioritizes g nodes (fun order parent_ids child_ids _ => lft_randomized prio parent_ids child_ids pick order).
Proof.
  intros Hg Hst Hp Hpick order parent_ids child_ids dur H1 Hne H2 H3 H4 H5 _.
  assert (Hab := above_iff g order parent_ids H3).
  destruct (start_unique g nodes Hg Hst) as (s & Hs).
  destruct order as [|first others]; [congruence|].
  assert (Hfirst : forall n, In n (first :: others) -> parent_ids n = [] -> n = first).
  { assert (Hx : forall n, In n (first :: others) -> parent_ids n = [] -> n = s).
    { intros n Hn Hnil. destruct (Nat.eq_dec n s) as [E|E]; [exact E|]. apply H2 in Hn as Hh. destruct (Hs n Hh E) as (p & Hp1 & Hp2).
      exfalso. assert (Hin : In p (parent_ids n)) by (apply H3; [exact Hn|]; split; [apply H2; exact Hp1|exact Hp2]). rewrite Hnil in Hin. destruct Hin. }
    assert (Hf : first = s).
    { destruct (Nat.eq_dec first s) as [E|E]; [exact E|]. assert (Hh : is_head g nodes first) by (apply H2; left; reflexivity).
      destruct (Hs first Hh E) as (p & Hp1 & Hp2). exfalso.
      assert (Hb : comes_before (first :: others) p first) by (apply H5; [exact Hp2|apply H2; exact Hp1|left; reflexivity]).
      destruct Hb as (a & b & c & E'). inversion H1; subst. destruct a as [|x a]; injection E' as -> E'.
      - apply (proj1 Hp2). reflexivity.
      - match goal with H : ~ In _ _ |- _ => apply H end. rewrite E'. apply in_or_app. right. right. apply in_or_app. right. left. reflexivity. }
    intros n Hn Hnil. rewrite Hf. apply Hx; assumption. }
  destruct (lft_randomized_correct prio parent_ids child_ids pick first others) as (l & E & P & T & _).
  - exact H1.
  - intros x y Hxy Hx Hy. apply H5; auto. apply Hab in Hxy. tauto.
  - intros x y Hy Hx. apply H3 in Hx; tauto.
  - intros x y Hx. rewrite H4 by exact Hx. rewrite Hab. tauto.
  - exact Hfirst.
  - exact Hpick.
  - intros x y Hxy. apply Hab in Hxy as (Hx & Hy & Hxy). apply Hp; [apply H2; exact Hx|apply H2; exact Hy|exact Hxy].
  - exists l. split; [exact E|]. split; [exact P|]. eapply above_topological; eauto.
Qed.

(** ** The pipeline *)
Definition lft_inputs_ok (g : graph) (est : nat -> list worker -> Z) (cs : list contractor) (spec : nat -> work_spec) (apt : Z) : Prop :=
  inputs_ok g est cs spec apt /\ forall n, NoDup (map fst (sp_workers (spec n))).
(** The specification names numbers of workers outside of the requirements. *)
Definition wrong_names (g : graph) (spec : nat -> work_spec) (n : nat) : Prop := ~ names_in_range (spec n) (u_reqs (g_unit g n)).
Definition nobody_can (g : graph) (cs : list contractor) (spec : nat -> work_spec) (n : nat) : Prop :=
  forall ct, In ct cs -> ~ can_do (spec n) (u_reqs (g_unit g n)) ct.

Lemma lft_schedule_spec {T} g est anonymous cs spec apt choose nodes prioritize (build : list assignment -> list nat -> option (sched * T)) :
  graph_ok g nodes -> nodes <> [] -> lft_prioritizes g nodes prioritize -> lft_inputs_ok g est cs spec apt ->
  (forall k l, l <> [] -> (choose k l < length l)%nat) ->
  let r := lft_schedule g est anonymous cs spec choose nodes prioritize build in
  (r = LftCircular /\ chains_cyclic g nodes) \/
  (r = WrongSpecAmount /\ exists n, is_head g nodes n /\ wrong_names g spec n) \/
  (r = NoSufficient /\ cs <> [] /\ exists n, is_head g nodes n /\ nobody_can g cs spec n) \/
  (r = LftError /\ cs = []) \/
  exists asg l chains order, r = match build asg l with Some x => LftDone x | None => LftError end /\
    assign_all g est anonymous cs spec choose order = LftDone asg /\ Permutation l order /\ NoDup l /\ map a_node asg = order /\
    Forall (assigned_ok g est anonymous cs spec) asg /\ (forall n, In n l -> In n (map a_node asg)) /\
    (forall h, In h l <-> is_head g nodes h) /\
    chains_of g l = Some chains /\ NoDup (concat chains) /\ Permutation (concat chains) nodes /\
    (forall e, In e (g_edges g) -> comes_before (concat chains) (e_from e) (e_to e)) /\
    (forall c, In c chains <-> exists h, is_head g nodes h /\ chain_of g h = Some c) /\ (length l <= length nodes)%nat.
Proof.
  intros Hg Hne Hp [(H1 & H2 & H3 & H4 & H5 & H6) H7] Hch r. unfold r, lft_schedule.
  destruct (head_nodes_correct g nodes (gk_nodup _ _ Hg) (gk_closed _ _ Hg) (graph_chains g nodes Hg)) as (_ & [H|(-> & Hc)]); [right|left; auto].
  destruct H as (order & ps & chs & -> & O1 & O2 & O3 & O4 & O5 & _).
  assert (Hhd : forall n, In n order -> inseparable_parent g n = None /\ exists c, chain_of g n = Some c).
  { intros n Hn. apply O2 in Hn. split; [apply parent_none; apply Hn|].
    destruct (inseparable_chain_correct g n (graph_chains g nodes Hg) (proj2 Hn)) as (c & Ec & _). eauto. }
  assert (Ha := assign_all_spec g est anonymous cs spec choose H1 H3 H7 Hch order Hhd).
  destruct (assign_all _ _ _ _ _ _ _) as [asg| | | |] eqn:Easg.
  - right. right. right. destruct Ha as [Ha1 Ha2].
    assert (Hone : order <> []).
    { destruct nodes as [|v nodes']; [congruence|]. intros ->.
      destruct (has_head g (graph_chains _ _ Hg) (v :: nodes') (gk_closed _ _ Hg) v (or_introl eq_refl)) as (h & Hh & _).
      apply O2 in Hh. destruct Hh. }
    destruct (Hp order (ids_of ps) (ids_of chs) (duration_of asg) O1 Hone O2 O4 O5 O3) as (l & -> & P & T').
    { intros h Hh. eapply duration_pos; eauto. rewrite Ha1. exact Hh. }
    assert (Hl : NoDup l) by (eapply Permutation_NoDup; [apply Permutation_sym; exact P|exact O1]).
    assert (Hh : forall h, In h l <-> is_head g nodes h).
    { intros h. rewrite <- O2. split; apply Permutation_in; [exact P|apply Permutation_sym; exact P]. }
    destruct (order_chains g nodes Hg l Hl Hh T') as (chains & E & Q1 & Q2 & Q3 & Q4).
    exists asg, l, chains, order. split; [reflexivity|]. do 4 (split; [assumption|]). split; [exact Ha2|]. split.
    { intros n Hn. rewrite Ha1. eapply Permutation_in; eauto. }
    repeat (split; [assumption|]). apply NoDup_incl_length; [exact Hl|]. intros h H. apply Hh in H. apply H.
  - left. destruct Ha as (n & Hn & Ha). split; [reflexivity|]. exists n. split; [apply O2; exact Hn|exact Ha].
  - right. left. destruct Ha as (n & Hn & _ & Hcs & Ha). split; [reflexivity|]. split; [exact Hcs|]. exists n. split; [apply O2; exact Hn|exact Ha].
  - destruct Ha.
  - right. right. left. split; [reflexivity|apply Ha].
Qed.

(** What the teams of a chain are: named numbers of workers, and the largest possible otherwise. *)
Definition lft_teams (g : graph) (cs : list contractor) (spec : nat -> work_spec) (nodes : list nat) (sd : sched) : Prop :=
  forall h n w, is_head g nodes h -> in_chain g h n -> In (n, w) sd ->
    exists ct, In ct cs /\ sw_contractor w = ct_id ct /\ can_do (spec h) (u_reqs (g_unit g h)) ct /\
      names_in_range (spec h) (u_reqs (g_unit g h)) /\ largest_team (spec h) (u_reqs (g_unit g h)) ct (sw_team w).

Lemma staffed_teams g cs spec nodes chains sd : graph_ok g nodes ->
  (forall c, In c chains <-> exists h, is_head g nodes h /\ chain_of g h = Some c) ->
  (forall hd r n w, In (hd :: r) chains -> In n (hd :: r) -> In (n, w) sd -> lft_staffed g cs spec hd (sw_team w) (sw_contractor w)) ->
  lft_teams g cs spec nodes sd.
Proof.
  intros Hg Hc F h n w Hh Hin Hw.
  destruct (inseparable_chain_correct g h (graph_chains g nodes Hg) (proj2 Hh)) as (c & E & _ & M & _).
  assert (E' := E). apply chain_head in E' as [r ->].
  destruct (F h r n w) as (N & ct & A & B & C & D); [apply Hc; eauto|apply M; exact Hin|exact Hw|].
  exists ct. auto 6.
Qed.

(** The schedule follows an assignment of the head nodes. *)
Definition follows (g : graph) (est : nat -> list worker -> Z) (anonymous : nat) (cs : list contractor) (spec : nat -> work_spec)
           (choose : nat -> list Q -> nat) (nodes : list nat) (sd : sched) : Prop :=
  exists order asg, assign_all g est anonymous cs spec choose order = LftDone asg /\ map a_node asg = order /\ NoDup order /\
    (forall h, In h order <-> is_head g nodes h) /\ forall h w, is_head g nodes h -> In (h, w) sd -> as_assigned asg h w.

Lemma staffed_follows g est anonymous cs spec choose nodes chains sd asg order l : graph_ok g nodes ->
  assign_all g est anonymous cs spec choose order = LftDone asg -> map a_node asg = order -> NoDup l -> Permutation l order ->
  (forall h, In h l <-> is_head g nodes h) ->
  (forall c, In c chains <-> exists h, is_head g nodes h /\ chain_of g h = Some c) ->
  (forall hd r n w, In (hd :: r) chains -> In n (hd :: r) -> In (n, w) sd -> as_assigned asg hd w) ->
  follows g est anonymous cs spec choose nodes sd.
Proof.
  intros Hg Ha Hm Hnl HP Hh Hc F. exists order, asg. split; [exact Ha|]. split; [exact Hm|].
  split; [eapply Permutation_NoDup; eauto|]. split.
  - intros h. rewrite <- Hh. split; apply Permutation_in; [apply Permutation_sym; exact HP|exact HP].
  - intros h w Hhd Hw. destruct (inseparable_chain_correct g h (graph_chains g nodes Hg) (proj2 Hhd)) as (c & E & _).
    assert (E' := E). apply chain_head in E' as [r ->]. apply (F h r h w); [apply Hc; eauto|left; reflexivity|exact Hw].
Qed.

Lemma lft_momentum_feasible g nodes est anonymous prioritize cs spec apt choose sd s :
  graph_ok g nodes -> nodes <> [] -> lft_prioritizes g nodes prioritize -> lft_inputs_ok g est cs spec apt ->
  (forall k l, l <> [] -> (choose k l < length l)%nat) -> Z.of_nat (length nodes) < TIME_INF ->
  lft_schedule g est anonymous cs spec choose nodes prioritize (lft_momentum g est cs spec apt) = LftDone (sd, s) ->
  feasible g cs spec nodes sd /\ lft_teams g cs spec nodes sd /\ follows g est anonymous cs spec choose nodes sd /\
  (forall e wu wv, In e (g_edges g) -> In (e_from e, wu) sd -> In (e_to e, wv) sd ->
     (forall h, is_head g nodes h -> in_chain g h (e_from e) -> ~ in_chain g h (e_to e)) ->
     (forall h, is_head g nodes h -> in_chain g h (e_to e) -> sp_time (spec h) = None \/ e_to e = h) ->
     tadd (sw_finish wu) (e_lag e) <= sw_start wv).
Proof.
  intros Hg Hne Hp Hi Hch Hlen H.
  destruct (lft_schedule_spec g est anonymous cs spec apt choose nodes prioritize (lft_momentum g est cs spec apt) Hg Hne Hp Hi Hch)
    as [[E _]|[[E _]|[[E _]|[[E _]|(asg & l & chains & order & E & Easg & HP & Hnl & Hma & A1 & A2 & Hh & C1 & C2 & C3 & C4 & C5 & C6)]]]]; rewrite E in H; try discriminate.
  destruct (lft_momentum g est cs spec apt asg l) as [[sd' s']|] eqn:Eb; [|discriminate]. injection H as -> ->.
  destruct Hi as [(H1 & H2 & H3 & H4 & H5 & H6) H7].
  destruct (lft_loop_inv g est anonymous cs spec apt asg H1 H2 H3 H4 H5 H6 A1 l true [] chains [] (momentum_init (pool_of cs)) [] sd s)
    as (h' & [HI _]).
  { eapply lft_init; eauto. }
  { reflexivity. }
  { exact C1. }
  { simpl. rewrite (chains_of_length _ _ _ C1). lia. }
  { exact C2. }
  { intros e He _ _. apply C4. exact He. }
  { exact Eb. }
  destruct HI as [K I1 I2 L T TM P C]. simpl in K, TM, C.
  assert (Hst : forall hd r n w, In (hd :: r) chains -> In n (hd :: r) -> In (n, w) sd -> staffed g cs spec hd w).
  { intros hd r n w Hc Hn Hw. eapply staffed_weaker; [exact H1|exact H3|eapply as_assigned_staffed; eauto|reflexivity|reflexivity]. }
  split; [|split; [eapply staffed_teams; eauto using as_assigned_staffed|split; [apply (staffed_follows g est anonymous cs spec choose nodes chains sd asg order l); assumption|]]].
  - eapply feasible_of; eauto. intros ct k n t Hct Hin. assert (Hcap := capacity_pool cs ct k n H1 Hct Hin).
    destruct (Z.ltb_spec t 0).
    + rewrite busy_before_zero; [|intros m w Hm; apply (T m w Hm)|assumption].
      destruct (proj2 H1 ct Hct) as [_ Hn]. eapply Hn; eauto.
    + eapply Z.le_trans; [apply L|]. eapply minv_busy_le; eauto.
  - intros e wu wv He Hu Hv Hnc Hpin. apply (P e wu wv He Hu Hv).
    + intros (c & Hc & Hcu & Hcv). apply C5 in Hc as (h & Hh1 & Ec). destruct (chain_in g nodes Hg h c Hh1 Ec) as (_ & M & _).
      apply M in Hcu, Hcv. apply (Hnc h Hh1 Hcu Hcv).
    + destruct (gk_closed _ _ Hg e He) as [_ Hvn].
      destruct (has_head g (graph_chains g nodes Hg) nodes (gk_closed _ _ Hg) _ Hvn) as (h & Hh1 & Hh2).
      destruct (inseparable_chain_correct g h (graph_chains g nodes Hg) (proj2 Hh1)) as (c & Ec & _ & M & _).
      assert (Ec' := Ec). apply chain_head in Ec' as [r ->]. exists h, r. split; [apply C5; eauto|]. split; [apply M; exact Hh2|]. auto.
Qed.

Lemma lft_jit_feasible g nodes est anonymous prioritize cs spec apt choose sd s :
  graph_ok g nodes -> nodes <> [] -> lft_prioritizes g nodes prioritize -> lft_inputs_ok g est cs spec apt ->
  (forall k l, l <> [] -> (choose k l < length l)%nat) ->
  lft_schedule g est anonymous cs spec choose nodes prioritize (lft_jit g est cs spec apt) = LftDone (sd, s) ->
  feasible g cs spec nodes sd /\ lft_teams g cs spec nodes sd /\ follows g est anonymous cs spec choose nodes sd /\
  (forall e wu wv, In e (g_edges g) -> In (e_from e, wu) sd -> In (e_to e, wv) sd ->
     tadd (sw_finish wu) (e_lag e) <= sw_start wv).
Proof.
  intros Hg Hne Hp Hi Hch H.
  destruct (lft_schedule_spec g est anonymous cs spec apt choose nodes prioritize (lft_jit g est cs spec apt) Hg Hne Hp Hi Hch)
    as [[E _]|[[E _]|[[E _]|[[E _]|(asg & l & chains & order & E & Easg & HP & Hnl & Hma & A1 & A2 & Hh & C1 & C2 & C3 & C4 & C5 & C6)]]]]; rewrite E in H; try discriminate.
  destruct (lft_jit g est cs spec apt asg l) as [[sd' s']|] eqn:Eb; [|discriminate]. injection H as -> ->.
  destruct Hi as [(H1 & H2 & H3 & H4 & H5 & H6) H7].
  destruct (lft_jloop_inv g est anonymous cs spec apt asg H1 H2 H3 H4 H5 H6 A1 l true [] chains [] (jit_init (pool_of cs)) [] sd s)
    as (h' & HI).
  { eapply lft_jinit; eauto. }
  { auto. }
  { discriminate. }
  { exact C1. }
  { exact C2. }
  { exact Eb. }
  destruct HI as [K I1 I2 I3 L T TM P C]. simpl in K, TM, C.
  assert (Hst : forall hd r n w, In (hd :: r) chains -> In n (hd :: r) -> In (n, w) sd -> staffed g cs spec hd w).
  { intros hd r n w Hc Hn Hw. eapply staffed_weaker; [exact H1|exact H3|eapply as_assigned_staffed; eauto|reflexivity|reflexivity]. }
  split; [|split; [eapply staffed_teams; eauto using as_assigned_staffed|split; [apply (staffed_follows g est anonymous cs spec choose nodes chains sd asg order l); assumption|]]].
  - eapply feasible_of; eauto. intros ct k n t Hct Hin. assert (Hcap := capacity_pool cs ct k n H1 Hct Hin).
    eapply Z.le_trans; [apply L|]. eapply busy_ge_zero_time; eauto.
  - apply (earlier_prec g chains sd); auto.
Qed.

Lemma share_kinds g nodes : graph_ok g nodes ->
  (forall h m, is_head g nodes h -> in_chain g h m -> map r_kind (reqs_of g m) = map r_kind (reqs_of g h)) ->
  forall n c m, chain_of g n = Some c -> In m c -> map r_kind (reqs_of g m) = map r_kind (reqs_of g n).
Proof.
  intros Hg Hsh n c m Hc Hm. destruct (inseparable_parent g n) as [q|] eqn:Eq.
  - unfold chain_of in Hc. rewrite Eq in Hc. destruct (inseparable_son g n); injection Hc as <-; destruct Hm as [<-|[]]; reflexivity.
  - destruct (in_dec Nat.eq_dec n nodes) as [Hn|Hn].
    + assert (Hhd : is_head g nodes n) by (split; [exact Hn|apply parent_none; exact Eq]).
      apply Hsh; [exact Hhd|]. apply (chain_in g nodes Hg n c Hhd Hc). exact Hm.
    + destruct (inseparable_son g n) as [b|] eqn:Eb.
      * exfalso. apply son_some in Eb as (e & He & _ & Ef & _). apply Hn. rewrite <- Ef. apply (gk_closed _ _ Hg e He).
      * unfold chain_of in Hc. rewrite Eb in Hc. injection Hc as <-. destruct Hm as [<-|[]]. reflexivity.
Qed.

(** What an LFT scheduler answers when it answers no schedule. *)
Definition lft_refusal {A} (g : graph) (cs : list contractor) (spec : nat -> work_spec) (nodes : list nat) (r : lft_result A) : Prop :=
  (r = LftCircular /\ chains_cyclic g nodes) \/
  (r = WrongSpecAmount /\ exists n, is_head g nodes n /\ wrong_names g spec n) \/
  (r = NoSufficient /\ exists n, is_head g nodes n /\ nobody_can g cs spec n) \/
  (r = LftError /\ cs = []).

Lemma lft_momentum_total g nodes est anonymous prioritize cs spec apt choose :
  graph_ok g nodes -> nodes <> [] -> lft_prioritizes g nodes prioritize -> lft_inputs_ok g est cs spec apt ->
  (forall k l, l <> [] -> (choose k l < length l)%nat) -> Z.of_nat (length nodes) < TIME_INF ->
  times_fit g est cs spec nodes apt -> (forall n, sp_time (spec n) = None) ->
  (forall n, u_service (g_unit g n) = true -> reqs_of g n = []) ->
  (forall h m, is_head g nodes h -> in_chain g h m -> map r_kind (reqs_of g m) = map r_kind (reqs_of g h)) ->
  let r := lft_schedule g est anonymous cs spec choose nodes prioritize (lft_momentum g est cs spec apt) in
  (exists sd s, r = LftDone (sd, s)) \/ lft_refusal g cs spec nodes r.
Proof.
  intros Hg Hne Hp Hi Hch Hlen (D & Lg & HD & HL & Hfit) Hst Hsv Hsh r. unfold lft_refusal.
  destruct (lft_schedule_spec g est anonymous cs spec apt choose nodes prioritize (lft_momentum g est cs spec apt) Hg Hne Hp Hi Hch)
    as [E|[E|[(E & _ & E')|[E|(asg & l & chains & order & E & Easg & HP & Hnl & Hma & A1 & A2 & Hh & C1 & C2 & C3 & C4 & C5 & C6)]]]]; fold r in E; auto 6.
  left. destruct Hi as [(H1 & H2 & H3 & H4 & H5 & H6) H7].
  assert (Hle : length (concat chains) = length nodes) by (apply Permutation_length; exact C3).
  destruct (lft_loop_safe g est anonymous cs spec apt asg H1 H2 H3 H4 H5 H6 A1 D Lg (proj1 HD) (proj2 HD) HL Hsv (share_kinds g nodes Hg Hsh) Hst
    l true [] chains [] (momentum_init (pool_of cs)) []) as ([sd s] & Eb).
  { eapply lft_init; eauto. }
  { auto. }
  { split; [simpl; lia|]. split; [intros m w []|]. intros x Hx. apply (Z.le_trans _ 0); [apply momentum_init_zero in Hx; lia|simpl; lia]. }
  { exact A2. }
  { exact C1. }
  { simpl. rewrite (chains_of_length _ _ _ C1). lia. }
  { simpl. rewrite Hle. exact Hfit. }
  { exact C2. }
  { intros e He _ _. apply C4. exact He. }
  exists sd, s. rewrite E. unfold lft_momentum. rewrite Eb. reflexivity.
Qed.

Lemma lft_jit_total g nodes est anonymous prioritize cs spec apt choose :
  graph_ok g nodes -> nodes <> [] -> lft_prioritizes g nodes prioritize -> lft_inputs_ok g est cs spec apt ->
  (forall k l, l <> [] -> (choose k l < length l)%nat) ->
  times_fit g est cs spec nodes apt -> (forall n, sp_time (spec n) = None) -> inseparable_lags_ok g ->
  let r := lft_schedule g est anonymous cs spec choose nodes prioritize (lft_jit g est cs spec apt) in
  (exists sd s, r = LftDone (sd, s)) \/ lft_refusal g cs spec nodes r.
Proof.
  intros Hg Hne Hp Hi Hch (D & Lg & HD & HL & Hfit) Hst Hlags r. unfold lft_refusal.
  destruct (lft_schedule_spec g est anonymous cs spec apt choose nodes prioritize (lft_jit g est cs spec apt) Hg Hne Hp Hi Hch)
    as [E|[E|[(E & _ & E')|[E|(asg & l & chains & order & E & Easg & HP & Hnl & Hma & A1 & A2 & Hh & C1 & C2 & C3 & C4 & C5 & C6)]]]]; fold r in E; auto 6.
  left. destruct Hi as [(H1 & H2 & H3 & H4 & H5 & H6) H7].
  assert (Hle : length (concat chains) = length nodes) by (apply Permutation_length; exact C3).
  assert (Hsi : single_inseparable_parent g).
  { intros e e' He He' Hi1 Hi2 Ht. apply (gk_single_parent _ _ Hg _ _ (e_to e)); [exists e|exists e']; auto. }
  destruct (lft_jloop_safe g est anonymous cs spec apt asg H1 H2 H3 H4 H5 H6 A1 D Lg Hsi Hlags (proj1 HD) (proj2 HD) HL Hst
    l true [] chains [] (jit_init (pool_of cs)) []) as ([sd s] & Eb).
  { eapply lft_jinit; eauto. }
  { auto. }
  { discriminate. }
  { split; [intros n w []|]. apply jit_init_times. simpl. lia. }
  { exact C1. }
  { intros n Hn. apply parent_none. apply Hh in Hn. apply Hn. }
  { exact A2. }
  { simpl. rewrite Hle. exact Hfit. }
  { exact C2. }
  exists sd, s. rewrite E. unfold lft_jit. rewrite Eb. reflexivity.
Qed.

(** ** Evenness *)
Definition given (asg : list assignment) (id : nat) : Z := Z.of_nat (length (filter (fun a => Nat.eqb (a_contractor a) id) asg)).

Lemma accepts_all_mask (f : contractor -> bool) (cs : list contractor) (l : list Z) : (forall c, In c cs -> f c = true) -> length l = length cs ->
  masked (map f cs) l = l.
Proof.
  unfold masked. revert l. induction cs as [|c cs IH]; intros [|x l] H Hl; simpl in *; try reflexivity; try discriminate.
  rewrite (H c) by (left; reflexivity). simpl. f_equal. apply IH; [intros; apply H; right; assumption|lia].
Qed.
Lemma filter_all {A} (f : A -> bool) l : (forall x, In x l -> f x = true) -> filter f l = l.
Proof. induction l as [|x l IH]; intros H; simpl; [reflexivity|]. rewrite (H x) by (left; reflexivity). f_equal. apply IH. intros; apply H; right; assumption. Qed.
Lemma increment_nth : forall l i j, nth_error (increment i l) j = match nth_error l j with Some x => Some (if Nat.eqb i j then x + 1 else x) | None => None end.
Proof.
  induction l as [|x l IH]; intros [|i] [|j]; simpl; try reflexivity; try (destruct (nth_error l j); reflexivity). apply IH.
Qed.
Lemma zsum_positive l : (forall x, In x l -> 1 <= x) -> l <> [] -> 0 < zsum_list l.
Proof.
  intros H Hne. assert (Hp : forall l, (forall x, In x l -> 1 <= x) -> 0 <= zsum_list l).
  { clear. induction l as [|x l IH]; intros H; [cbn; lia|]. change (zsum_list (x :: l)) with (x + zsum_list l).
    assert (Hx := H x (or_introl eq_refl)). specialize (IH (fun y Hy => H y (or_intror Hy))). lia. }
  destruct l as [|x l]; [congruence|]. change (zsum_list (x :: l)) with (x + zsum_list l).
  specialize (Hp l (fun y Hy => H y (or_intror Hy))). specialize (H x (or_introl eq_refl)). lia.
Qed.
Lemma share_le x y t : 0 < t -> Qle (share x t) (share y t) -> x <= y.
Proof.
  intros Ht H. unfold share in H. apply Qmult_le_r with (z := inject_Z t) in H; [|rewrite (Zlt_Qlt 0 t) in Ht; exact Ht].
  assert (Hnz : ~ (inject_Z t == 0)%Q) by (intros E; rewrite (Zlt_Qlt 0 t) in Ht; rewrite E in Ht; apply (Qlt_irrefl _ Ht)).
  rewrite !Qmult_comm with (y := inject_Z t) in H. rewrite !Qmult_div_r in H by exact Hnz. rewrite <- Zle_Qle in H. exact H.
Qed.
(** with equal durations the smallest counter wins *)
Lemma scores_best d durations counts total i : 0 < total -> (forall x, In x durations -> x = d) -> length durations = length counts -> counts <> [] ->
  i = argmax (scores durations counts total) -> exists c, nth_error counts i = Some c /\ forall j c', nth_error counts j = Some c' -> c <= c'.
Proof.
  intros Ht Hd Hl Hne ->. unfold scores. set (f := fun dc : Z * Z => _).
  assert (Hlen : length (combine durations counts) = length counts) by (rewrite combine_length; lia).
  destruct (argmax_max (map f (combine durations counts))) as (v & V1 & V2 & _).
  { intros E. apply map_eq_nil in E. rewrite E in Hlen. destruct counts; [congruence|discriminate]. }
  set (i := argmax _) in *.
  assert (Hn : forall j c, nth_error counts j = Some c -> nth_error (combine durations counts) j = Some (d, c)).
  { clear -Hd Hl. revert counts Hl. induction durations as [|x l IH]; intros [|y counts] Hl [|j] c E; simpl in *; try discriminate.
    - injection E as ->. rewrite (Hd x) by (left; reflexivity). reflexivity.
    - apply IH; auto. }
  assert (Hi : (i < length counts)%nat).
  { rewrite <- Hlen, <- (map_length f). apply nth_error_Some. rewrite V1. discriminate. }
  destruct (nth_error counts i) as [c|] eqn:Ec; [|apply nth_error_None in Ec; lia]. exists c. split; [reflexivity|].
  intros j c' Ec'. rewrite (map_nth_error f _ _ (Hn i c Ec)) in V1. injection V1 as <-.
  specialize (V2 j _ (map_nth_error f _ _ (Hn j c' Ec'))). unfold f in V2. simpl in V2.
  apply (share_le c c' total Ht). lra.
Qed.

Section Even.
  Variables (g : graph) (est : nat -> list worker -> Z) (anonymous : nat) (cs : list contractor) (spec : nat -> work_spec).
  Hypothesis Hcs : contractors_ok cs.
  Hypothesis Hreqs : forall n, reqs_ok (reqs_of g n).
  Hypothesis Hspec : forall n, NoDup (map fst (sp_workers (spec n))).
  Hypothesis Hsame : forall ct ct', In ct cs -> In ct' cs -> ct_workers ct = ct_workers ct'.

  Lemma assign_work_even k n counts a counts' : length counts = length cs -> (forall x, In x counts -> 1 <= x) ->
    (forall ct, In ct cs -> can_do (spec n) (reqs_of g n) ct) ->
    assign_work g est anonymous cs spec (fun _ => argmax) k n counts = LftDone (a, counts') ->
    exists i ct c, nth_error cs i = Some ct /\ a_contractor a = ct_id ct /\ counts' = increment i counts /\
      nth_error counts i = Some c /\ forall j c', nth_error counts j = Some c' -> c <= c'.
  Proof.
    intros Hl Hpos Hcan H. unfold assign_work in H.
    assert (HC := contractors_for_spec (spec n) (reqs_of g n) cs (Hspec n) (Hreqs n) Hcs).
    destruct (contractors_for _ _ _) as [accepted| | | |]; try discriminate. destruct HC as (Hin & -> & Hne).
    assert (Hacc : forall c, In c cs -> accepts (spec n) (reqs_of g n) c = true).
    { intros c Hc. apply (accepts_iff (spec n) (reqs_of g n) cs (Hspec n) (Hreqs n) Hcs c Hc). apply Hcan. exact Hc. }
    rewrite (filter_all _ _ Hacc) in H, Hne. rewrite (accepts_all_mask _ _ _ Hacc Hl) in H.
    set (pairs := map _ cs) in *.
    destruct (map_opt _ pairs) as [durations|] eqn:Ed; [|discriminate]. apply map_opt_forall2 in Ed. assert (Hld := Forall2_len _ _ _ Ed).
    assert (Hcne : cs <> []) by (intros E; apply Hne; unfold pairs; rewrite E; reflexivity).
    assert (Hd : exists d, forall x, In x durations -> x = d).
    { destruct durations as [|d0 rest] eqn:Edur; [exists 0; intros x []|]. rewrite <- Edur in *. exists d0.
      assert (Hall : forall x y, In x durations -> In y durations -> x = y); [|intros x Hx; apply Hall; [exact Hx|rewrite Edur; left; reflexivity]].
      intros x y Hx Hy. apply (forall2_in_r _ _ _ _ Ed) in Hx as (px & Hpx & Ex). apply (forall2_in_r _ _ _ _ Ed) in Hy as (py & Hpy & Ey).
      apply in_map_iff in Hpx as (cx & <- & Hcx). apply in_map_iff in Hpy as (cy & <- & Hcy). simpl in Ex, Ey.
      assert (Ew : worker_amounts (spec n) (reqs_of g n) cx = worker_amounts (spec n) (reqs_of g n) cy).
      { unfold worker_amounts, contractor_amount. rewrite (Hsame cx cy Hcx Hcy). reflexivity. }
      rewrite Ew in Ex. congruence. }
    destruct Hd as [d Hd].
    assert (Hlp : length pairs = length cs) by (unfold pairs; apply map_length).
    destruct (scores_best d durations counts (zsum_list counts) (argmax (scores durations counts (zsum_list counts)))) as (c & C1 & C2); auto.
    { apply zsum_positive; [exact Hpos|]. intros E. rewrite E in Hl. destruct cs; [congruence|discriminate]. }
    { lia. }
    { intros E. rewrite E in Hl. destruct cs; [congruence|discriminate]. }
    set (i := argmax _) in *. cbv zeta in H.
    assert (Hi : (i < length cs)%nat) by (rewrite <- Hl; apply nth_error_Some; rewrite C1; discriminate).
    destruct (nth_error cs i) as [ct|] eqn:Ec; [|apply nth_error_None in Ec; lia].
    assert (Ep : nth_error pairs i = Some (ct, worker_amounts (spec n) (reqs_of g n) ct)) by exact (map_nth_error (fun c => (c, worker_amounts (spec n) (reqs_of g n) c)) i cs Ec).
    rewrite Ep in H. destruct (nth_error durations i) as [dd|]; [|discriminate]. destruct (lft_team _ _ _); [|discriminate].
    injection H as <- <-. exists i, ct, c. auto 6.
  Qed.

  Lemma assign_loop_even : forall nodes k counts asg, length counts = length cs -> (forall x, In x counts -> 1 <= x) ->
    (forall x y, In x counts -> In y counts -> x <= y + 1) ->
    (forall n ct, In n nodes -> In ct cs -> can_do (spec n) (reqs_of g n) ct) ->
    assign_loop g est anonymous cs spec (fun _ => argmax) k nodes counts = LftDone asg ->
    forall i j ct ct' x y, nth_error cs i = Some ct -> nth_error cs j = Some ct' -> nth_error counts i = Some x -> nth_error counts j = Some y ->
      x + given asg (ct_id ct) <= y + given asg (ct_id ct') + 1.
  Proof.
    induction nodes as [|n nodes IH]; intros k counts asg Hl Hpos Hev Hcan H i j ct ct' x y Ei Ej Ex Ey; cbn [assign_loop] in H.
    - injection H as <-. cbn. assert (Hh := Hev x y (nth_error_In _ _ Ex) (nth_error_In _ _ Ey)). lia.
    - destruct (assign_work _ _ _ _ _ _ _ _ _) as [[a counts']| | | |] eqn:Ew; try discriminate.
      destruct (assign_loop _ _ _ _ _ _ _ _ _) as [asg'| | | |] eqn:Er; try discriminate. injection H as <-.
      destruct (assign_work_even k n counts a counts' Hl Hpos (fun c Hc => Hcan n c (or_introl eq_refl) Hc) Ew) as (m & cm & c & M1 & M2 & -> & M4 & M5).
      assert (Hin : forall z, In z (increment m counts) -> exists q z0, nth_error counts q = Some z0 /\ z = (if Nat.eqb m q then z0 + 1 else z0)).
      { intros z Hz. apply In_nth_error in Hz as [q Hq]. rewrite increment_nth in Hq. destruct (nth_error counts q) as [z0|] eqn:Eq; [|discriminate].
        injection Hq as <-. eauto. }
      assert (HIH := IH (S k) (increment m counts) asg').
      assert (Hgi : forall q cq, nth_error cs q = Some cq -> given (a :: asg') (ct_id cq) = (if Nat.eqb m q then 1 else 0) + given asg' (ct_id cq)).
      { intros q cq Eq. unfold given. simpl. rewrite M2. destruct (Nat.eqb_spec m q) as [<-|Hne].
        - assert (cq = cm) by congruence. subst. rewrite Nat.eqb_refl. cbn [length]. lia.
        - destruct (Nat.eqb_spec (ct_id cm) (ct_id cq)) as [E|_]; [|lia]. exfalso. apply Hne.
          assert (Hq := proj1 Hcs). assert (Em := map_nth_error ct_id m cs M1). assert (Eq' := map_nth_error ct_id q cs Eq).
          apply (proj1 (NoDup_nth_error (map ct_id cs)) Hq); [apply nth_error_Some; rewrite Em; discriminate|]. congruence. }
      rewrite (Hgi i ct Ei), (Hgi j ct' Ej).
      specialize (HIH (eq_trans (increment_length counts m) Hl)).
      assert (Hr : (if Nat.eqb m i then x + 1 else x) + given asg' (ct_id ct) <= (if Nat.eqb m j then y + 1 else y) + given asg' (ct_id ct') + 1).
      { apply (HIH) with (i := i) (j := j); auto.
        - intros z Hz. apply Hin in Hz as (q & z0 & Eq & ->). assert (Hq := Hpos z0 (nth_error_In _ _ Eq)). destruct (Nat.eqb m q); lia.
        - intros z1 z2 Hz1 Hz2. apply Hin in Hz1 as (q1 & w1 & Eq1 & ->). apply Hin in Hz2 as (q2 & w2 & Eq2 & ->).
          assert (A := Hev w1 w2 (nth_error_In _ _ Eq1) (nth_error_In _ _ Eq2)). assert (B := M5 _ _ Eq2).
          destruct (Nat.eqb_spec m q1) as [<-|]; destruct (Nat.eqb_spec m q2); try lia. assert (w1 = c) by congruence. lia.
        - intros n' c' Hn'. apply Hcan. right. exact Hn'.
        - rewrite increment_nth, Ex. reflexivity.
        - rewrite increment_nth, Ey. reflexivity. }
      destruct (Nat.eqb m i), (Nat.eqb m j); lia.
  Qed.
End Even.

(** The number of chains that a contractor gets in a schedule. *)
Definition chains_given (g : graph) (sd : sched) (id : nat) : Z :=
  Z.of_nat (length (filter (fun nw => match inseparable_parent g (fst nw) with None => Nat.eqb (sw_contractor (snd nw)) id | Some _ => false end) sd)).

Lemma given_chains g est anonymous cs spec choose nodes sd : graph_ok g nodes -> Permutation (map fst sd) nodes ->
  follows g est anonymous cs spec choose nodes sd ->
  exists order asg, assign_all g est anonymous cs spec choose order = LftDone asg /\ (forall h, In h order <-> is_head g nodes h) /\
    forall id, chains_given g sd id = given asg id.
Proof.
  intros Hg HP (order & asg & Ha & Hm & Hnd & Hh & F). exists order, asg. split; [exact Ha|]. split; [exact Hh|]. intros id.
  unfold chains_given, given. f_equal. set (l1 := filter _ sd). set (l2 := filter _ asg).
  rewrite <- (map_length fst l1), <- (map_length a_node l2). apply Permutation_length.
  assert (Hns : NoDup (map fst sd)) by (eapply Permutation_NoDup; [apply Permutation_sym; exact HP|apply Hg]).
  assert (Hsub : forall {A B} (f : A -> B) (p : A -> bool) l, NoDup (map f l) -> NoDup (map f (filter p l))).
  { clear. intros A B f p l. induction l as [|x l IH]; simpl; intros H; [constructor|]. inversion H; subst. destruct (p x); simpl; [|auto].
    constructor; [|auto]. intros Hc. apply in_map_iff in Hc as (y & Hy & Hin). apply filter_In in Hin as [Hin _].
    match goal with H : ~ In _ _ |- _ => apply H end. apply in_map_iff. eauto. }
  apply NoDup_Permutation.
  - apply Hsub. exact Hns.
  - apply Hsub. rewrite Hm. exact Hnd.
  - intros n. rewrite !in_map_iff. split.
    + intros ([n' w] & <- & Hin). apply filter_In in Hin as [Hin Hc]. simpl in *. destruct (inseparable_parent g n') eqn:Ep; [discriminate|].
      assert (Hhd : is_head g nodes n').
      { split; [eapply Permutation_in; [exact HP|]; apply in_map_iff; exists (n', w); auto|apply parent_none; exact Ep]. }
      destruct (F n' w Hhd Hin) as (a & A1 & A2 & A3 & A4). exists a. split; [exact A2|]. apply filter_In. split; [exact A1|]. congruence.
    + intros (a & <- & Hin). apply filter_In in Hin as [Hin Hc].
      assert (Hhd : is_head g nodes (a_node a)) by (apply Hh; rewrite <- Hm; apply in_map; exact Hin).
      assert (Hk : In (a_node a) (map fst sd)) by (eapply Permutation_in; [apply Permutation_sym; exact HP|apply Hhd]).
      apply in_map_iff in Hk as ([n' w] & En & Hw). simpl in En. subst n'. exists (a_node a, w). split; [reflexivity|].
      apply filter_In. split; [exact Hw|]. simpl. rewrite (proj2 (parent_none g (a_node a)) (proj2 Hhd)).
      destruct (F _ w Hhd Hw) as (a' & A1 & A2 & A3 & A4).
      assert (a' = a).
      { clear -A1 A2 Hin Hnd Hm. subst order. revert Hnd A1 Hin. induction asg as [|x l IH]; simpl; intros Hnd H1 H2; [destruct H1|]. inversion Hnd; subst.
        destruct H1 as [->|H1], H2 as [->|H2]; auto; exfalso.
        - match goal with H : ~ In _ _ |- _ => apply H end. rewrite A2. apply in_map. exact H2.
        - match goal with H : ~ In _ _ |- _ => apply H end. rewrite <- A2. apply in_map. exact H1. }
      subst a'. rewrite A4. exact Hc.
Qed.

(** ** The theorems *)
(** The random generator: an index of the list of scores; an element of the list of
    candidates. *)
Definition choose_ok (choose : nat -> list Q -> nat) : Prop := forall k l, l <> [] -> (choose k l < length l)%nat.
Definition pick_ok (pick : nat -> list nat -> nat) : Prop := forall k l, l <> [] -> In (pick k l) l.
(** Dependencies between works of different chains are respected with their lags, unless
    the dependent work sits inside a chain with an assigned time. *)
Definition chains_respected (g : graph) (spec : nat -> work_spec) (nodes : list nat) (sd : sched) : Prop :=
  forall e wu wv, In e (g_edges g) -> In (e_from e, wu) sd -> In (e_to e, wv) sd ->
    (forall h, is_head g nodes h -> in_chain g h (e_from e) -> ~ in_chain g h (e_to e)) ->
    (forall h, is_head g nodes h -> in_chain g h (e_to e) -> sp_time (spec h) = None \/ e_to e = h) ->
    tadd (sw_finish wu) (e_lag e) <= sw_start wv.
Definition dependencies_respected (g : graph) (sd : sched) : Prop :=
  forall e wu wv, In e (g_edges g) -> In (e_from e, wu) sd -> In (e_to e, wv) sd -> tadd (sw_finish wu) (e_lag e) <= sw_start wv.

Lemma argmax_choose : choose_ok (fun _ => argmax).
Proof. intros k l H. apply argmax_lt. exact H. Qed.
Lemma random_choose choose : choose_ok choose -> choose_ok (fun k l => if Nat.ltb 1 (length l) then choose k l else O).
Proof. intros H k l Hne. destruct (Nat.ltb 1 (length l)); [apply H; exact Hne|]. destruct l; [congruence|simpl; lia]. Qed.

Theorem lft_feasible :
  forall g nodes est anonymous prio cs spec apt,
    graph_ok g nodes -> nodes <> [] -> priorities_ok g nodes prio -> lft_inputs_ok g est cs spec apt ->
    (forall sd s, Z.of_nat (length nodes) < TIME_INF -> lft_scheduler g est anonymous cs spec apt nodes prio = LftDone (sd, s) ->
       feasible g cs spec nodes sd /\ lft_teams g cs spec nodes sd /\ chains_respected g spec nodes sd) /\
    (forall sd s, lft_scheduler_jit g est anonymous cs spec apt nodes prio = LftDone (sd, s) ->
       feasible g cs spec nodes sd /\ lft_teams g cs spec nodes sd /\ dependencies_respected g sd).
Proof.
  intros g nodes est anonymous prio cs spec apt Hg Hne Hp Hi. assert (Hpr := lft_order_prioritizes g nodes prio Hp). split.
  - intros sd s Hlen H. destruct (lft_momentum_feasible _ _ _ _ _ _ _ _ _ _ _ Hg Hne Hpr Hi argmax_choose Hlen H) as (A & B & _ & C). auto.
  - intros sd s H. destruct (lft_jit_feasible _ _ _ _ _ _ _ _ _ _ _ Hg Hne Hpr Hi argmax_choose H) as (A & B & _ & C). auto.
Qed.
Print Assumptions lft_feasible.

Theorem randomized_lft_feasible :
  forall g nodes est anonymous prio cs spec apt choose pick,
    graph_ok g nodes -> nodes <> [] -> has_start g nodes -> priorities_ok g nodes prio -> lft_inputs_ok g est cs spec apt ->
    choose_ok choose -> pick_ok pick ->
    (forall sd s, Z.of_nat (length nodes) < TIME_INF -> randomized_lft_scheduler g est anonymous cs spec apt nodes prio choose pick = LftDone (sd, s) ->
       feasible g cs spec nodes sd /\ lft_teams g cs spec nodes sd /\ chains_respected g spec nodes sd) /\
    (forall sd s, randomized_lft_scheduler_jit g est anonymous cs spec apt nodes prio choose pick = LftDone (sd, s) ->
       feasible g cs spec nodes sd /\ lft_teams g cs spec nodes sd /\ dependencies_respected g sd).
Proof.
  intros g nodes est anonymous prio cs spec apt choose pick Hg Hne Hst Hp Hi Hc Hpk.
  assert (Hpr := lft_randomized_prioritizes g nodes prio pick Hg Hst Hp Hpk). split.
  - intros sd s Hlen H. destruct (lft_momentum_feasible _ _ _ _ _ _ _ _ _ _ _ Hg Hne Hpr Hi (random_choose _ Hc) Hlen H) as (A & B & _ & C). auto.
  - intros sd s H. destruct (lft_jit_feasible _ _ _ _ _ _ _ _ _ _ _ Hg Hne Hpr Hi (random_choose _ Hc) H) as (A & B & _ & C). auto.
Qed.
Print Assumptions randomized_lft_feasible.

(** A schedule, or the reason for its absence. *)
Theorem lft_total :
  forall g nodes est anonymous prio cs spec apt,
    graph_ok g nodes -> nodes <> [] -> priorities_ok g nodes prio -> lft_inputs_ok g est cs spec apt ->
    times_fit g est cs spec nodes apt -> (forall n, sp_time (spec n) = None) ->
    (Z.of_nat (length nodes) < TIME_INF -> (forall n, u_service (g_unit g n) = true -> reqs_of g n = []) ->
       (forall h m, is_head g nodes h -> in_chain g h m -> map r_kind (reqs_of g m) = map r_kind (reqs_of g h)) ->
       let r := lft_scheduler g est anonymous cs spec apt nodes prio in
       (exists sd s, r = LftDone (sd, s)) \/ lft_refusal g cs spec nodes r) /\
    (inseparable_lags_ok g ->
       let r := lft_scheduler_jit g est anonymous cs spec apt nodes prio in
       (exists sd s, r = LftDone (sd, s)) \/ lft_refusal g cs spec nodes r).
Proof.
  intros g nodes est anonymous prio cs spec apt Hg Hne Hp Hi Hf Hst. assert (Hpr := lft_order_prioritizes g nodes prio Hp). split.
  - intros Hlen Hsv Hsh. apply lft_momentum_total; auto using argmax_choose.
  - intros Hlags. apply lft_jit_total; auto using argmax_choose.
Qed.
Print Assumptions lft_total.

Theorem randomized_lft_total :
  forall g nodes est anonymous prio cs spec apt choose pick,
    graph_ok g nodes -> nodes <> [] -> has_start g nodes -> priorities_ok g nodes prio -> lft_inputs_ok g est cs spec apt ->
    choose_ok choose -> pick_ok pick ->
    times_fit g est cs spec nodes apt -> (forall n, sp_time (spec n) = None) ->
    (Z.of_nat (length nodes) < TIME_INF -> (forall n, u_service (g_unit g n) = true -> reqs_of g n = []) ->
       (forall h m, is_head g nodes h -> in_chain g h m -> map r_kind (reqs_of g m) = map r_kind (reqs_of g h)) ->
       let r := randomized_lft_scheduler g est anonymous cs spec apt nodes prio choose pick in
       (exists sd s, r = LftDone (sd, s)) \/ lft_refusal g cs spec nodes r) /\
    (inseparable_lags_ok g ->
       let r := randomized_lft_scheduler_jit g est anonymous cs spec apt nodes prio choose pick in
       (exists sd s, r = LftDone (sd, s)) \/ lft_refusal g cs spec nodes r).
Proof.
  intros g nodes est anonymous prio cs spec apt choose pick Hg Hne Hst0 Hp Hi Hc Hpk Hf Hst.
  assert (Hpr := lft_randomized_prioritizes g nodes prio pick Hg Hst0 Hp Hpk). split.
  - intros Hlen Hsv Hsh. apply lft_momentum_total; auto. apply random_choose. exact Hc.
  - intros Hlags. apply lft_jit_total; auto. apply random_choose. exact Hc.
Qed.
Print Assumptions randomized_lft_total.

(** Contractors with equal workforces that may and can do every work get equally many
    chains, up to one. *)
Theorem lft_even :
  forall g nodes est anonymous prio cs spec apt sd s,
    graph_ok g nodes -> nodes <> [] -> priorities_ok g nodes prio -> lft_inputs_ok g est cs spec apt ->
    Z.of_nat (length nodes) < TIME_INF ->
    (forall ct ct', In ct cs -> In ct' cs -> ct_workers ct = ct_workers ct') ->
    (forall h ct, is_head g nodes h -> In ct cs -> can_do (spec h) (u_reqs (g_unit g h)) ct) ->
    lft_scheduler g est anonymous cs spec apt nodes prio = LftDone (sd, s) ->
    forall ct ct', In ct cs -> In ct' cs -> chains_given g sd (ct_id ct) <= chains_given g sd (ct_id ct') + 1.
Proof.
  intros g nodes est anonymous prio cs spec apt sd s Hg Hne Hp Hi Hlen Hsame Hcan H ct ct' Hct Hct'.
  destruct (lft_momentum_feasible _ _ _ _ _ _ _ _ _ _ _ Hg Hne (lft_order_prioritizes g nodes prio Hp) Hi argmax_choose Hlen H) as (A & _ & B & _).
  destruct (given_chains _ _ _ _ _ _ _ _ Hg (fs_works _ _ _ _ _ A) B) as (order & asg & Ea & Hh & E).
  rewrite !E. destruct Hi as [(H1 & H2 & H3 & H4 & H5 & H6) H7]. unfold assign_all in Ea.
  apply In_nth_error in Hct as [i Ei]. apply In_nth_error in Hct' as [j Ej].
  assert (Hx := map_nth_error (fun _ => 1) i cs Ei). assert (Hy := map_nth_error (fun _ => 1) j cs Ej).
  assert (R := assign_loop_even g est anonymous cs spec H1 H3 H7 Hsame order 0 (map (fun _ => 1) cs) asg (map_length _ _)).
  enough (Hr : 1 + given asg (ct_id ct) <= 1 + given asg (ct_id ct') + 1) by lia.
  eapply (R _ _ _ Ea i j ct ct' 1 1 Ei Ej Hx Hy).
  Unshelve.
  - intros x Hin. apply in_map_iff in Hin as (? & <- & _). lia.
  - intros x y Hinx Hiny. apply in_map_iff in Hinx as (? & <- & _). apply in_map_iff in Hiny as (? & <- & _). lia.
  - intros n c Hn Hc. apply Hcan; [apply Hh; exact Hn|exact Hc].
Qed.
Print Assumptions lft_even.

(** ** Finding: the counter of another contractor *)
(** Three contractors, of which the last two, with equal workforces, are allowed for every
    work: the second gets all the works and the third none, whatever their number. *)
Lemma starve_loop g est anonymous a b c spec : contractors_ok [a; b; c] -> (forall n, reqs_ok (reqs_of g n)) ->
  (forall n, NoDup (map fst (sp_workers (spec n)))) -> ct_workers b = ct_workers c ->
  (forall n, sp_contractors (spec n) = [ct_id b; ct_id c]) ->
  forall nodes k x asg, assign_loop g est anonymous [a; b; c] spec (fun _ => argmax) k nodes [x; 1; 1] = LftDone asg ->
  forall q, In q asg -> a_contractor q = ct_id b.
Proof.
  intros Hcs Hreqs Hspec Hw Hen. induction nodes as [|n nodes IH]; intros k x asg H q Hq; cbn [assign_loop] in H.
  { injection H as <-. destruct Hq. }
  destruct (assign_work _ _ _ _ _ _ _ _ _) as [[a0 counts']| | | |] eqn:Ew; try discriminate.
  destruct (assign_loop _ _ _ _ _ _ _ nodes _) as [asg'| | | |] eqn:Er; try discriminate. injection H as <-.
  assert (Ha : accepts (spec n) (reqs_of g n) a = false).
  { unfold accepts. apply andb_false_iff. right. unfold contractor_enabled. rewrite (Hen n). simpl.
    destruct Hcs as [Hnd _]. simpl in Hnd. inversion Hnd as [|? ? Hni _]; subst. simpl in Hni.
    destruct (Nat.eqb_spec (ct_id a) (ct_id b)); [exfalso; apply Hni; auto|]. destruct (Nat.eqb_spec (ct_id a) (ct_id c)); [exfalso; apply Hni; auto|]. reflexivity. }
  assert (Hbc : accepts (spec n) (reqs_of g n) c = accepts (spec n) (reqs_of g n) b).
  { unfold accepts, contractor_amount, contractor_enabled. rewrite Hw, (Hen n). f_equal. simpl. rewrite !Nat.eqb_refl, orb_true_r. reflexivity. }
  unfold assign_work in Ew.
  assert (HC := contractors_for_spec (spec n) (reqs_of g n) [a; b; c] (Hspec n) (Hreqs n) Hcs).
  destruct (contractors_for _ _ _) as [accepted| | | |]; try discriminate. destruct HC as (Hin & -> & Hne).
  cbn [filter] in Ew, Hne. rewrite Ha, Hbc in Ew, Hne. destruct (accepts (spec n) (reqs_of g n) b) eqn:Eb; [|exfalso; apply Hne; reflexivity].
  cbn [map map_opt snd] in Ew.
  assert (Ewa : worker_amounts (spec n) (reqs_of g n) c = worker_amounts (spec n) (reqs_of g n) b).
  { unfold worker_amounts, contractor_amount. rewrite Hw. reflexivity. }
  rewrite Ewa, Ha, Hbc, Eb in Ew. destruct (chain_duration _ _ _ _ _) as [d|]; [|discriminate].
  cbn [masked combine map filter fst snd] in Ew. set (sc := scores _ _ _) in Ew.
  assert (Hsc : argmax sc = O).
  { unfold sc, scores. cbn [combine map argmax argmax_from fst snd]. 
    match goal with |- context [Qle_bool ?u ?u] => assert (E : Qle_bool u u = true) by (apply Qle_bool_iff; apply Qle_refl); rewrite E end. reflexivity. }
  rewrite Hsc in Ew. cbn [nth_error increment] in Ew. destruct (lft_team _ _ _); [|discriminate]. injection Ew as <- <-.
  destruct Hq as [<-|Hq]; [reflexivity|]. eapply IH; eauto.
Qed.
Theorem lft_uneven :
  forall g nodes est anonymous prio a b c spec apt sd s,
    graph_ok g nodes -> nodes <> [] -> priorities_ok g nodes prio -> lft_inputs_ok g est [a; b; c] spec apt ->
    Z.of_nat (length nodes) < TIME_INF ->
    ct_workers b = ct_workers c -> (forall n, sp_contractors (spec n) = [ct_id b; ct_id c]) ->
    lft_scheduler g est anonymous [a; b; c] spec apt nodes prio = LftDone (sd, s) ->
    forall h w, is_head g nodes h -> In (h, w) sd -> sw_contractor w = ct_id b.
Proof.
  intros g nodes est anonymous prio a b c spec apt sd s Hg Hne Hp Hi Hlen Hw Hen H h w Hh Hin.
  destruct (lft_momentum_feasible _ _ _ _ _ _ _ _ _ _ _ Hg Hne (lft_order_prioritizes g nodes prio Hp) Hi argmax_choose Hlen H)
    as (A & _ & (order & asg & Ea & _ & _ & _ & F) & _).
  destruct (F h w Hh Hin) as (q & Q1 & _ & _ & ->). destruct Hi as [(H1 & H2 & H3 & H4 & H5 & H6) H7].
  eapply starve_loop; eauto.
Qed.
Print Assumptions lft_uneven.

(** ** Concrete cases *)
Definition lx_same : list contractor := [Ct 0 [(0%nat, 3); (1%nat, 2)]; Ct 1 [(0%nat, 3); (1%nat, 2)]].
Definition lx_three : list contractor := Ct 2 [(0%nat, 9); (1%nat, 9)] :: lx_same.
Definition lx_free (n : nat) : work_spec := WSpec [] [] None false.
Definition lx_two (n : nat) : work_spec := WSpec [0%nat; 1%nat] [] None false.
Definition lx_pick (k : nat) (l : list nat) : nat := nth (k mod length l) l O.
Definition lx_choose (k : nat) (l : list Q) : nat := (k mod length l)%nat.
Example lft_hypotheses :
  graph_ok sx_graph px_nodes /\ px_nodes <> [] /\ has_start sx_graph px_nodes /\ priorities_ok sx_graph px_nodes (fun _ => 1) /\
  lft_inputs_ok sx_graph sx_est sx_contractors sx_spec 0 /\ choose_ok lx_choose /\ pick_ok lx_pick /\
  times_fit sx_graph sx_est sx_contractors sx_spec px_nodes 0 /\ (forall n, sp_time (sx_spec n) = None) /\
  inseparable_lags_ok sx_graph.
Proof.
  destruct pipeline_hypotheses as (H1 & H2 & H3 & H4 & _ & _ & _ & _ & H5 & H6 & _ & H7 & H8 & H9).
  split; [exact H1|]. split; [discriminate|]. split.
  { exists O. intros n Hn Hne. simpl in Hn.
    repeat destruct Hn as [<-|Hn]; try tauto; [exists 0%nat | exists 1%nat | exists 0%nat | exists 3%nat | exists 4%nat];
      apply parents_in; vm_compute; tauto. }
  split; [exact H2|]. split; [split; [exact H3|]|].
  { intros n. unfold sx_spec. destruct (Nat.eqb n 4); constructor. }
  split. { intros k l Hl. unfold lx_choose. apply Nat.mod_upper_bound. destruct l; [congruence|discriminate]. }
  split. { intros k l Hl. unfold lx_pick. apply nth_In. apply Nat.mod_upper_bound. destruct l; [congruence|discriminate]. }
  auto.
Qed.

(** The second contractor alone is allowed for work 4. *)
Definition lx_times {T} (r : lft_result (sched * T)) : list (nat * nat * Z * Z) :=
  match r with LftDone (sd, _) => map (fun x => (fst x, sw_contractor (snd x), sw_start (snd x), sw_finish (snd x))) (rev sd) | _ => [] end.
Example lft_schedules :
  (lx_times (lft_scheduler sx_graph sx_est 9 sx_contractors sx_spec 0 px_nodes (fun _ => 1)),
   lx_times (lft_scheduler_jit sx_graph sx_est 9 sx_contractors sx_spec 0 px_nodes (fun _ => 1)),
   lx_times (randomized_lft_scheduler sx_graph sx_est 9 sx_contractors sx_spec 0 px_nodes (fun _ => 1) lx_choose lx_pick),
   lx_times (randomized_lft_scheduler_jit sx_graph sx_est 9 sx_contractors sx_spec 0 px_nodes (fun _ => 1) lx_choose lx_pick)) =
  ([(0%nat, 0%nat, 0, 0); (1%nat, 1%nat, 0, 6); (2%nat, 1%nat, 6, 13); (3%nat, 0%nat, 2, 10); (4%nat, 1%nat, 13, 22); (5%nat, 1%nat, 22, 22)],
   [(0%nat, 0%nat, 0, 0); (1%nat, 1%nat, 0, 6); (2%nat, 1%nat, 6, 13); (3%nat, 0%nat, 2, 10); (4%nat, 1%nat, 13, 22); (5%nat, 1%nat, 22, 22)],
   [(0%nat, 0%nat, 0, 0); (3%nat, 0%nat, 2, 10); (1%nat, 1%nat, 0, 6); (2%nat, 1%nat, 6, 13); (4%nat, 1%nat, 13, 22); (5%nat, 0%nat, 22, 22)],
   [(0%nat, 0%nat, 0, 0); (3%nat, 0%nat, 2, 10); (1%nat, 1%nat, 0, 6); (2%nat, 1%nat, 6, 13); (4%nat, 1%nat, 13, 22); (5%nat, 0%nat, 22, 22)]).
Proof. vm_compute. reflexivity. Qed.
(** Work 4 for a contractor without enough workers; a number of workers beyond the
    requirement; no contractors. *)
Example lft_refuses :
  lft_scheduler sx_graph sx_est 9 [Ct 0 [(0%nat, 3); (1%nat, 2)]] sx_spec 0 px_nodes (fun _ => 1) = NoSufficient /\
  lft_scheduler sx_graph sx_est 9 sx_contractors (fun n => WSpec [] [(0%nat, 4)] None false) 0 px_nodes (fun _ => 1) = WrongSpecAmount /\
  lft_scheduler sx_graph sx_est 9 [] sx_spec 0 px_nodes (fun _ => 1) = LftError.
Proof. vm_compute. repeat split; reflexivity. Qed.
Lemma lx_contractors_ok : contractors_ok lx_same /\ contractors_ok lx_three.
Proof.
  split; (split; [repeat constructor; simpl; intuition lia|]); intros c Hc; simpl in Hc; repeat destruct Hc as [<-|Hc]; try tauto; simpl;
    (split; [repeat constructor; simpl; intuition lia|]); intros k n H; simpl in H; repeat destruct H as [H|H]; try tauto; injection H as <- <-; lia.
Qed.
Example lft_even_hypotheses :
  lft_inputs_ok sx_graph sx_est lx_same lx_free 0 /\
  (forall ct ct', In ct lx_same -> In ct' lx_same -> ct_workers ct = ct_workers ct') /\
  (forall h ct, is_head sx_graph px_nodes h -> In ct lx_same -> can_do (lx_free h) (u_reqs (g_unit sx_graph h)) ct) /\
  match lft_scheduler sx_graph sx_est 9 lx_same lx_free 0 px_nodes (fun _ => 1) with
  | LftDone (sd, _) => (chains_given sx_graph sd 0, chains_given sx_graph sd 1) | _ => (0, 0) end = (3, 2).
Proof.
  destruct pipeline_hypotheses as (_ & _ & (_ & H2 & H3 & H4 & _ & H6) & _). repeat match goal with |- _ /\ _ => split end.
  - split; [repeat (split; [assumption || apply lx_contractors_ok|])|intros n; constructor]. split; [|exact H6]. intros n. split; simpl; auto; tauto.
  - intros ct ct' Hc Hc'. simpl in Hc, Hc'. intuition (subst; reflexivity).
  - intros h ct _ Hct. split; [left; reflexivity|]. intros r Hr.
    destruct h as [|[|[|[|[|h]]]]]; cbn in Hr; repeat destruct Hr as [<-|Hr]; try tauto;
      (simpl in Hct; destruct Hct as [<-|[<-|[]]]; simpl; eexists; (split; [eauto|]); (split; [lia|]); intros m [[] _]).
  - vm_compute. reflexivity.
Qed.
Example lft_uneven_hypotheses :
  lft_inputs_ok sx_graph sx_est lx_three lx_two 0 /\
  lx_times (lft_scheduler sx_graph sx_est 9 lx_three lx_two 0 px_nodes (fun _ => 1)) =
    [(0%nat, 0%nat, 0, 0); (1%nat, 0%nat, 0, 6); (2%nat, 0%nat, 6, 13); (3%nat, 0%nat, 13, 21); (4%nat, 0%nat, 22, 31); (5%nat, 0%nat, 31, 31)].
Proof.
  destruct pipeline_hypotheses as (_ & _ & (_ & H2 & H3 & H4 & _ & H6) & _). repeat match goal with |- _ /\ _ => split end.
  - split; [repeat (split; [assumption || apply lx_contractors_ok|])|intros n; constructor]. split; [|exact H6]. intros n. split; simpl; auto; tauto.
  - vm_compute. reflexivity.
Qed.
