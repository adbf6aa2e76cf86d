(** The parallel scheme of decoding ends and raises nothing. *)
From Coq Require Import ZArith List Bool Lia Arith ZifyBool ZifyNat Permutation.
From Verif Require Import TimeModel MomentumModel MomentumSpec MomentumHistory MomentumTeamProofs
  JITModel JITHistory JITProofs GraphModel ScheduleModel ScheduleSpec ContractorProofs TeamProofs ScheduleProofs
  SchedulePoolProofs ScheduleInv ScheduleSafe JitScheduleInv JitScheduleSafe SgsModel SgsSpec SgsSerial SgsParallel.
Import ListNotations.
Local Open Scope Z_scope.

Inductive subseq {A} : list A -> list A -> Prop :=
| sub_nil l : subseq [] l
| sub_skip x l l' : subseq l l' -> subseq l (x :: l')
| sub_take x l l' : subseq l l' -> subseq (x :: l) (x :: l').
Lemma subseq_refl {A} (l : list A) : subseq l l.
Proof. induction l; constructor; assumption. Qed.
Lemma subseq_tail {A} (x : A) l l' : subseq (x :: l) l' -> subseq l l'.
Proof. remember (x :: l) as k. intros H. revert x l Heqk. induction H as [l0|y k l0 H IH|y k l0 H IH]; intros x l E; [discriminate|constructor; eauto|injection E as -> ->; constructor; exact H]. Qed.
Lemma subseq_trans {A} (a b c : list A) : subseq a b -> subseq b c -> subseq a c.
Proof.
  intros H1 H2. revert a H1. induction H2 as [l|x l l' H IH|x l l' H IH]; intros a H1.
  - inversion H1. constructor.
  - constructor. auto.
  - inversion H1 as [| ? ? ? H3|? ? ? H3]; subst; [constructor|constructor; auto|apply sub_take; auto].
Qed.
Lemma subseq_in {A} (a b : list A) x : subseq a b -> In x a -> In x b.
Proof. induction 1 as [l|y l l' _ IH|y l l' _ IH]; intros Hx; [destruct Hx|right; auto|destruct Hx as [<-|Hx]; [left; reflexivity|right; auto]]. Qed.
Lemma subseq_split {A} (q : A) r l : subseq (q :: r) l -> exists a b, l = a ++ q :: b /\ subseq r b.
Proof.
  remember (q :: r) as k. intros H. induction H as [l|x k l' H IH|x k l' H IH]; [discriminate| |].
  - destruct (IH Heqk) as (a & b & -> & Hb). exists (x :: a), b. auto.
  - injection Heqk as -> ->. exists [], l'. auto.
Qed.

(** the chain with assigned times *)
Lemma zsum_nonneg l : Forall (fun t => 0 <= t) l -> 0 <= zsum l.
Proof. induction 1 as [|x l Hx _ IH]; unfold zsum in *; simpl; lia. Qed.
Lemma place_times_le g est Lg team c : 0 <= Lg -> (forall e, In e (g_edges g) -> e_lag e <= Lg) ->
  forall chain curr l sd fin sd' B, length l = length chain -> Forall (fun t => 0 <= t) l -> 0 <= curr <= B -> curr <= TIME_INF ->
    (forall m w, In (m, w) sd -> sw_finish w <= B) ->
    jit_place g est team c curr chain (Some l) sd = Some (fin, sd') ->
    fin <= B + zsum l + Z.of_nat (length chain) * Lg /\
    (forall m w, In (m, w) sd' -> sw_finish w <= B + zsum l + Z.of_nat (length chain) * Lg).
Proof.
  intros HL0 HL. induction chain as [|n chain IH]; intros curr l sd fin sd' B Hl Hn Hc Hci Hs H; cbn [jit_place] in H.
  - injection H as <- <-. assert (A := zsum_nonneg l Hn). simpl. split; [lia|]. intros m w Hin. apply Hs in Hin. lia.
  - destruct (match inseparable_parent g n with Some _ => _ | None => true end); [|discriminate].
    destruct l as [|t l]; [discriminate|]. inversion Hn as [|? ? Ht Hn']; subst.
    assert (Hm := min_start_le g B Lg sd n HL0 HL ltac:(lia) Hs).
    set (start := tmax (tadd curr 0) (min_start_time g sd n)) in *.
    assert (A := tadd_le_sum curr 0 ltac:(lia)). assert (A2 := tadd_ge curr 0 ltac:(lia) Hci).
    assert (Hst : 0 <= start <= B + Lg) by (unfold start; rewrite tmax_spec; lia). clearbody start.
    assert (F := tadd_le_sum start t ltac:(lia)).
    assert (F0 : 0 <= tadd start t).
    { inf. unfold tadd. destruct (set_time_cases (start + t)) as [[E1 R]|[[R1 R2]|[R1 R2]]]; lia. }
    assert (Hs' : forall m w, In (m, w) ((n, SW start (tadd start t) team c) :: sd) -> sw_finish w <= B + Lg + t).
    { intros m w [[= <- <-]|Hin]; [simpl; lia|]. apply Hs in Hin. lia. }
    destruct (IH (tadd start t) l _ fin sd' (B + Lg + t) ltac:(simpl in Hl; lia) Hn' ltac:(lia) (proj2 (set_time_range _)) Hs' H) as [I1 I2].
    change (zsum (t :: l)) with (t + zsum l). cbn [length]. rewrite Nat2Z.inj_succ.
    split; [lia|]. intros m w Hin. apply I2 in Hin. lia.
Qed.

Section Safe.
  Variables (g : graph) (est : nat -> list worker -> Z) (names : list nat) (cs : list contractor) (nodes : list nat)
            (ch : chromosome) (apt : Z) (bcs : list contractor) (total : nat) (all : list (list nat)) (D Lg Top : Z).
  Hypothesis Hcs : contractors_ok cs.
  Hypothesis Hest : estimator_ok est.
  Hypothesis Hvol : forall n, 0 <= volume_of g n.
  Hypothesis Hapt : 0 <= apt <= TIME_INF.
  Hypothesis Hnames : NoDup names.
  Hypothesis Hch : chromosome_ok ch.
  Hypothesis Hbcs : with_borders names ch 0 cs = Some bcs.
  Hypothesis Hrow : forall n amounts ci k a b, gene nodes ch n amounts ci -> row_amount names amounts k a ->
    border_for names (ch_borders ch) ci k b -> a <= b.
  Hypothesis Hspc : forall n amounts ci k a m, gene nodes ch n amounts ci -> row_amount names amounts k a -> 0 < a ->
    spec_count (ch_spec ch n) (reqs_of g n) k m -> m <= a.
  Hypothesis Hnd : NoDup (concat all).
  (* for totality *)
  Hypothesis Hfull : forall n, length (sp_workers (ch_spec ch n)) = length (reqs_of g n) ->
    forall r, In r (reqs_of g n) -> In (r_kind r) (map fst (sp_workers (ch_spec ch n))).
  Hypothesis Hsingle : single_inseparable_parent g.
  Hypothesis Hlags : inseparable_lags_ok g.
  Hypothesis HD0 : 0 <= D.
  Hypothesis HD : forall n c m tm, chain_of g n = Some c -> In m c -> row_team names cs nodes ch n tm -> est m tm <= D.
  Hypothesis HDt : forall n t, sp_time (ch_spec ch n) = Some t -> t <= D.
  Hypothesis HL0 : 0 <= Lg.
  Hypothesis HL : forall e, In e (g_edges g) -> e_lag e <= Lg.

  Let p := pool_of bcs.
  Let inv := pinv g est names cs nodes ch bcs all.
  Let tryw := try_work g est ch apt total.
  Let trya := try_all g est ch apt total.

  Definition clen (q : pwork) : Z := match chain_of g (pw_node q) with Some c => Z.of_nat (length c) | None => 0 end.
  Definition weight (q : pwork) : Z := Lg + 1 + clen q * (D + Lg).
  Definition limit (l : list pwork) : Z := Top - zsum (map weight l).
  Definition below (B : Z) (s : pstate) : Prop :=
    (forall n w, In (n, w) (ps_sched s) -> sw_finish w <= B) /\ JitScheduleInv.times_le B (ps_tl s) /\ (forall x, In x (ps_times s) -> x <= B).

  Lemma weight_pos q : Lg + 1 <= weight q.
  Proof. unfold weight, clen. destruct (chain_of g (pw_node q)); nia. Qed.
  Lemma limit_drop k q r : limit (k ++ r) = limit (k ++ q :: r) + weight q.
  Proof. unfold limit. rewrite !map_app, !zsum_app. cbn [map]. change (zsum (weight q :: map weight r)) with (weight q + zsum (map weight r)). lia. Qed.

  Lemma exec_le q : decoded g names cs nodes ch est q -> inseparable_parent g (pw_node q) = None ->
    chain_of g (pw_node q) <> None -> pw_exec q <= clen q * D.
  Proof.
    intros Hq Hp Hcn. assert (Hraw := proj1 (raw_within g names cs nodes ch bcs Hcs Hnames Hch Hbcs Hrow Hspc est q Hq)).
    destruct Hq as (w & amounts & ci & c & _ & _ & _ & _ & _ & E). unfold clen.
    assert (Hc1 : forall c', chain_of g (pw_node q) = Some c' -> 1 <= Z.of_nat (length c')).
    { intros c' Hc'. destruct (chain_head _ _ _ Hc') as [r ->]. simpl. lia. }
    destruct (sp_time (ch_spec ch (pw_node q))) as [t|] eqn:Et.
    - injection E as <-. specialize (HDt _ _ Et). destruct (chain_of g (pw_node q)) as [c'|] eqn:Ec'.
      + specialize (Hc1 _ eq_refl). destruct Hch as (_ & _ & Hsp). destruct (Hsp (pw_node q)) as [[_ H] _]. rewrite Et in H. nia.
      + congruence.
    - unfold cascade_time in E. rewrite Hp in E. destruct (chain_of g (pw_node q)) as [l|] eqn:El; [|discriminate]. injection E as <-.
      assert (K : forall l t, (forall m, In m l -> est m (pw_team q) <= D) -> 0 <= t ->
        fold_left (fun t m => tadd t (est m (pw_team q))) l t <= t + Z.of_nat (length l) * D).
      { clear -Hest HD0. induction l as [|m l IH]; intros t Hm Ht; cbn [fold_left length]; [lia|].
        assert (He := Hest m (pw_team q)). assert (Hd := Hm m (or_introl eq_refl)).
        assert (A := tadd_le_sum t (est m (pw_team q)) ltac:(lia)).
        assert (F0 : 0 <= tadd t (est m (pw_team q))).
        { inf. unfold tadd. destruct (set_time_cases (t + est m (pw_team q))) as [[E1 R]|[[R1 R2]|[R1 R2]]]; lia. }
        specialize (IH _ (fun x Hx => Hm x (or_intror Hx)) F0). lia. }
      assert (X := K l 0 (fun m Hm => HD _ _ m _ El Hm Hraw) (Z.le_refl 0)). lia.
  Qed.

  Lemma apply_spec_total q : exists team, apply_spec (sp_workers (ch_spec ch (pw_node q))) (reqs_of g (pw_node q)) (pw_team q) = Some team.
  Proof.
    unfold apply_spec. apply map_opt_total. intros w _.
    destruct (existsb (Nat.eqb (w_kind w)) (map r_kind (reqs_of g (pw_node q)))) eqn:Ex; [|eauto].
    destruct (Nat.eqb_spec (length (sp_workers (ch_spec ch (pw_node q)))) (length (reqs_of g (pw_node q)))) as [El|El]; [|eauto].
    apply existsb_exists in Ex as (k & Hk & Ek). apply Nat.eqb_eq in Ek. subst k. apply in_map_iff in Hk as (r & Er & Hr).
    assert (Hin := Hfull _ El r Hr). rewrite Er in Hin. clear -Hin.
    induction (sp_workers (ch_spec ch (pw_node q))) as [|[k m] l IH]; [destruct Hin|]. cbn [assoc_get]. simpl in Hin.
    destruct (Nat.eqb_spec k (w_kind w)); [eauto|]. destruct Hin as [?|Hin]; [congruence|apply IH; exact Hin].
  Qed.

  Lemma try_work_total t q l1 l2 s : 0 <= t <= TIME_INF -> inv (l1 ++ q :: l2) s -> inseparable_parent g (pw_node q) = None ->
    0 <= limit (l1 ++ q :: l2) -> apt <= limit (l1 ++ q :: l2) -> below (limit (l1 ++ q :: l2)) s -> t <= limit (l1 ++ q :: l2) + Lg + 1 ->
    (pw_pos q = 0%nat -> ps_tl s = jit_init p) ->
    tryw t q s = Some None \/ exists s', tryw t q s = Some (Some s') /\ below (limit (l1 ++ l2)) s'.
  Proof.
    intros Ht (chains & rest & h & HI & HA & HS & Hrest & Hperm & Hdec & Htm) Hpar HB0 HBa (B1 & B2 & B3) HtB Hfirst.
    set (B := limit (l1 ++ q :: l2)) in *.
    assert (Hq : decoded g names cs nodes ch est q) by (rewrite Forall_forall in Hdec; apply Hdec; apply in_or_app; right; left; reflexivity).
    rewrite map_app in Hrest. cbn [map] in Hrest. destruct (chains_of_app _ _ _ _ Hrest) as (r1 & r2' & -> & R1 & R2). cbn [chains_of] in R2.
    destruct (chain_of g (pw_node q)) as [c|] eqn:Ec; [|discriminate].
    assert (I1 := j_inv _ _ _ _ _ _ _ HI).
    assert (Hw := proj2 (raw_within g names cs nodes ch bcs Hcs Hnames Hch Hbcs Hrow Hspc est q Hq)). fold p in Hw.
    destruct (find_agents_spec p (ps_tl s) (sp_independent (ch_spec ch (pw_node q))) (agents_of (pw_team q)) I1 Hw 0) as (r & F1 & _).
    rewrite to_workers_agents in F1.
    destruct (apply_spec_total q) as [team Ea].
    destruct (decoded_teams g names cs nodes ch bcs Hcs Hnames Hch Hbcs Hrow Hspc est q team Hq Ea) as (T1 & T2 & T3 & T4 & T5).
    assert (Hcl : clen q = Z.of_nat (length c)) by (unfold clen; rewrite Ec; reflexivity).
    assert (Hex := exec_range g est names cs nodes ch apt Hest Hvol Hapt Hch Hrow Hspc q Hq).
    assert (Hexl := exec_le q Hq Hpar ltac:(congruence)). rewrite Hcl in Hexl.
    assert (Hlim : limit (l1 ++ l2) = B + weight q) by apply limit_drop.
    assert (Hwt : weight q = Lg + 1 + Z.of_nat (length c) * (D + Lg)) by (unfold weight; rewrite Hcl; reflexivity).
    (* scheduling succeeds *)
    assert (Hsch : forall st, 0 <= st <= B + Lg + 1 -> st <= TIME_INF ->
      exists sd' tl', jit_schedule g est (ps_sched s) (ps_tl s) (pw_node q) team (pw_contractor q)
        (WSpec (sp_contractors (ch_spec ch (pw_node q))) (sp_workers (ch_spec ch (pw_node q))) (Some (pw_exec q)) (sp_independent (ch_spec ch (pw_node q))))
        (Some st) apt = Some (sd', tl') /\
        below (limit (l1 ++ l2)) (PS sd' tl' (add_time (tadd st (pw_exec q)) (add_time st (ps_times s))))).
    { intros st Hst Hsti. unfold jit_schedule. rewrite Ec. cbn [sp_time sp_independent].
      destruct (chain_linked g _ c Hsingle Hlags Hpar Ec) as (cr & Ecr & Hlk).
      destruct (jit_place_total g est team (pw_contractor q) (pw_node q) cr st
        (Some (assigned_exec_times (map (volume_of g) c) (pw_exec q))) (ps_sched s) Hpar Hlk) as (fin & sd' & Epl).
      rewrite <- Ecr in Epl. rewrite Epl.
      destruct (assigned_times_spec (map (volume_of g) c) (pw_exec q)) as (A1 & A2 & A3).
      { rewrite Ecr. discriminate. }
      { apply Forall_forall. intros v Hv. apply in_map_iff in Hv as (m & <- & _). apply Hvol. }
      { exact Hex. }
      rewrite map_length in A1.
      destruct (place_times_le g est Lg team (pw_contractor q) HL0 HL c st _ (ps_sched s) fin sd' (B + Lg + 1) A1 A2 ltac:(lia) Hsti) as [P1 P2].
      { intros m w Hin. apply B1 in Hin. lia. }
      { exact Epl. }
      rewrite A3 in P1, P2.
      destruct (jit_update_spec p (sp_independent (ch_spec ch (pw_node q))) fin 0 (agents_of team) (ps_tl s) I1 T4) as (tl1 & U1 & _).
      rewrite to_workers_agents in U1. rewrite U1. do 2 eexists. split; [reflexivity|]. rewrite Hlim, Hwt. split; [|split]; cbn [ps_sched ps_tl ps_times].
      - intros n w Hin. apply P2 in Hin. nia.
      - eapply jit_update_times; [| |exact U1]; [nia|]. intros a st0 x Ha Hx. specialize (B2 a st0 x Ha Hx). nia.
      - intros x Hx. apply add_time_in in Hx as [->|Hx].
        + assert (X := tadd_le_sum st (pw_exec q) ltac:(lia)). nia.
        + apply add_time_in in Hx as [->|Hx]; [nia|]. apply B3 in Hx. nia. }
    assert (Hgo : (if Nat.eqb (S (pw_pos q)) total then tmax t 0 else if Nat.eqb (pw_pos q) 0 then apt else t) <= B + Lg + 1 /\
                  0 <= (if Nat.eqb (S (pw_pos q)) total then tmax t 0 else if Nat.eqb (pw_pos q) 0 then apt else t) <= TIME_INF).
    { destruct (Nat.eqb (S (pw_pos q)) total); [rewrite tmax_spec; lia|]. destruct (Nat.eqb (pw_pos q) 0); lia. }
    unfold tryw, try_work. set (st := if Nat.eqb (S (pw_pos q)) total then _ else _) in *.
    destruct (Hsch st ltac:(lia) ltac:(lia)) as (sd' & tl' & E & Hb).
    assert (Hfree : jit_workers_free (sp_independent (ch_spec ch (pw_node q))) (pw_team q) t (ps_tl s) = Some (r <=? t)).
    { unfold jit_workers_free. rewrite F1. reflexivity. }
    assert (Hcan : exists b, jit_can_schedule g (ps_sched s) (ps_tl s) (pw_node q) (pw_team q) (sp_independent (ch_spec ch (pw_node q))) t = Some b).
    { unfold jit_can_schedule. destruct (sp_independent (ch_spec ch (pw_node q))); [eauto|]. rewrite Ec.
      destruct (forallb _ c); [|eauto]. destruct (t <? min_start_time g (ps_sched s) (pw_node q)); eauto. }
    destruct Hcan as [[|] ->]; [|left; reflexivity]. right. rewrite Ea, E. eauto.
  Qed.

  (** when it is late enough the first remaining work is scheduled *)
  Variable works : list pwork.
  Hypothesis Hworks : chains_of g (map pw_node works) = Some all.
  Hypothesis Hclosed : forall e, In e (g_edges g) -> is_dependency (e_type e) = true -> In (e_to e) (concat all) ->
    comes_before (concat all) (e_from e) (e_to e).

  Lemma first_goes t q r s : inv (q :: r) s -> subseq (q :: r) works -> 0 <= limit (q :: r) -> below (limit (q :: r)) s ->
    limit (q :: r) + Lg <= t -> tryw t q s <> Some None.
  Proof.
    intros (chains & rest & h & HI & HA & HS & Hrest & Hperm & Hdec & Htm) Hsub HB0 (B1 & B2 & B3) Ht H.
    set (B := limit (q :: r)) in *.
    assert (Hq : decoded g names cs nodes ch est q) by (inversion Hdec; assumption).
    cbn [map chains_of] in Hrest. destruct (chain_of g (pw_node q)) as [c|] eqn:Ec; [|discriminate].
    destruct (chains_of g (map pw_node r)) as [rest'|] eqn:Er; [|discriminate]. injection Hrest as <-.
    assert (I1 := j_inv _ _ _ _ _ _ _ HI).
    assert (Hw := proj2 (raw_within g names cs nodes ch bcs Hcs Hnames Hch Hbcs Hrow Hspc est q Hq)). fold p in Hw.
    destruct (find_agents_spec p (ps_tl s) (sp_independent (ch_spec ch (pw_node q))) (agents_of (pw_team q)) I1 Hw 0) as (x & F1 & _).
    rewrite to_workers_agents in F1. assert (Fx := find_agents_le B _ _ B2 _ _ _ HB0 F1).
    assert (Hfree : jit_workers_free (sp_independent (ch_spec ch (pw_node q))) (pw_team q) t (ps_tl s) = Some true).
    { unfold jit_workers_free. rewrite F1. destruct (Z.leb_spec x t); [reflexivity|lia]. }
    assert (Hm := min_start_le g B Lg (ps_sched s) (pw_node q) HL0 HL HB0 B1).
    assert (Hcan : jit_can_schedule g (ps_sched s) (ps_tl s) (pw_node q) (pw_team q) (sp_independent (ch_spec ch (pw_node q))) t = Some true).
    { unfold jit_can_schedule. destruct (sp_independent (ch_spec ch (pw_node q))); [exact Hfree|]. rewrite Ec.
      assert (Ef : forallb (fun m => forallb (fun y => existsb (Nat.eqb y) c || match sd_get (ps_sched s) y with Some _ => true | None => false end) (parents g m)) c = true).
      2: { rewrite Ef. destruct (Z.ltb_spec t (min_start_time g (ps_sched s) (pw_node q))); [lia|exact Hfree]. }
      apply forallb_forall. intros n Hn. apply forallb_forall. intros y Hy. apply orb_true_intro.
      unfold parents in Hy. apply in_map_iff in Hy as (e & <- & He). apply filter_In in He as [He Hd]. unfold edges_to in He. apply filter_In in He as [He Hto].
      apply Nat.eqb_eq in Hto.
      assert (Hca : forall z, In z c -> In z (concat all)).
      { intros z Hz. apply (Permutation_in _ (concat_perm _ _ Hperm)). apply in_concat. exists c. split; [apply in_or_app; right; left; reflexivity|exact Hz]. }
      rewrite <- Hto in Hn. assert (Hb := Hclosed e He Hd (Hca _ Hn)).
      assert (Hfrom : In (e_from e) (concat all)) by (destruct Hb as (a & b & d & E); rewrite E; apply in_or_app; right; left; reflexivity).
      apply (Permutation_in _ (Permutation_sym (concat_perm _ _ Hperm))) in Hfrom. rewrite concat_app in Hfrom. cbn [concat] in Hfrom.
      apply in_app_or in Hfrom as [Hfrom|Hfrom].
      { right. assert (Hk := j_keys _ _ _ _ _ _ _ HI). apply in_rev in Hfrom. rewrite <- Hk in Hfrom.
        apply in_map_iff in Hfrom as ([m w] & E & Hin). simpl in E. subst m.
        destruct (sd_get (ps_sched s) (e_from e)) eqn:Eg; [reflexivity|]. exfalso.
        clear -Hin Eg. induction (ps_sched s) as [|[k v] l IH]; [destruct Hin|]. cbn [sd_get] in Eg.
        destruct (Nat.eqb_spec k (e_from e)); [discriminate|]. destruct Hin as [[= -> _]|Hin]; [congruence|auto]. }
      apply in_app_or in Hfrom as [Hfrom|Hfrom].
      { left. apply existsb_exists. exists (e_from e). split; [exact Hfrom|apply Nat.eqb_refl]. }
      exfalso. destruct (subseq_split _ _ _ Hsub) as (a & b & Ew & Hb').
      assert (Hall := Hworks). rewrite Ew, map_app in Hall. cbn [map] in Hall.
      destruct (chains_of_app _ _ _ _ Hall) as (ca & cb' & Eall & _ & Hcb). cbn [chains_of] in Hcb. rewrite Ec in Hcb.
      destruct (chains_of g (map pw_node b)) as [cb|] eqn:Ecb; [|discriminate]. injection Hcb as <-.
      assert (Hin : In (e_from e) (concat cb)).
      { apply in_concat in Hfrom as (c1 & Hc1 & Hz). apply in_concat. exists c1. split; [|exact Hz].
        clear -Er Ecb Hb' Hc1. revert rest' cb Er Ecb Hc1.
        assert (K : forall q1, In q1 r -> In q1 b) by (intros; eapply subseq_in; eauto). intros rest' cb Er Ecb Hc1.
        assert (X : exists q1, In q1 r /\ chain_of g (pw_node q1) = Some c1).
        { clear -Er Hc1. revert rest' Er Hc1. induction r as [|q1 r IH]; intros rest' Er Hc1; cbn [map chains_of] in Er; [injection Er as <-; destruct Hc1|].
          destruct (chain_of g (pw_node q1)) as [c'|] eqn:E; [|discriminate]. destruct (chains_of g (map pw_node r)) as [r'|]; [|discriminate].
          injection Er as <-. destruct Hc1 as [->|Hc1]; [exists q1; simpl; auto|]. destruct (IH _ eq_refl Hc1) as (q2 & A & B). exists q2. simpl. auto. }
        destruct X as (q1 & A & B0). destruct (chains_of_in g _ _ (pw_node q1) Ecb) as (c2 & C1 & C2); [apply in_map; auto|]. congruence. }
      assert (Hnd' := Hnd). rewrite Eall, concat_app in Hb, Hnd'. cbn [concat] in Hb, Hnd'.
      assert (Hnd2 := nodup_app_r _ _ Hnd').
      (* the target lies before the source *)
      rewrite app_assoc in Hb, Hnd'. apply comes_before_prefix in Hb; [|exact Hnd'|apply in_or_app; right; exact Hn].
      destruct Hb as (u & v & z & E). apply (nodup_app_disj _ _ (e_from e) Hnd'); [|exact Hin].
      rewrite E. apply in_or_app. right. left. reflexivity. }
    unfold tryw, try_work in H. rewrite Hcan in H. destruct (apply_spec _ _ _); [|discriminate].
    destruct (jit_schedule _ _ _ _ _ _ _ _ _ _) as [[]|]; discriminate.
  Qed.

  Lemma rest_total t : 0 <= t <= TIME_INF -> forall r k s, inv (k ++ r) s -> others r ->
    (forall q, In q r -> inseparable_parent g (pw_node q) = None) ->
    apt <= limit (k ++ r) -> below (limit (k ++ r)) s -> t <= limit (k ++ r) + Lg + 1 ->
    exists l' s', trya t r s = Some (l', s') /\ below (limit (k ++ l')) s' /\ subseq l' r /\
      ((length l' < length r)%nat \/ (l' = r /\ s' = s /\ forall q, In q r -> tryw t q s = Some None)).
  Proof.
    intros Ht. induction r as [|q r IH]; intros k s HI Ho Hp HB Hb HtB; cbn [trya try_all].
    - exists [], s. split; [reflexivity|]. split; [exact Hb|]. split; [constructor|]. right. split; [reflexivity|]. split; [reflexivity|]. intros q [].
    - assert (Ho' : others r) by (intros x Hx; apply Ho; right; exact Hx).
      assert (H0 : pw_pos q = 0%nat -> ps_tl s = jit_init p) by (intros E; exfalso; apply (Ho q); [left; reflexivity|exact E]).
      destruct (try_work_total t q k r s Ht HI (Hp q (or_introl eq_refl)) ltac:(lia) HB Hb HtB H0) as [E|(s1 & E & Hb1)].
      + fold tryw. rewrite E. fold trya. destruct (IH (k ++ [q]) s) as (l' & s' & A1 & A2 & A3 & A4); auto.
        { rewrite <- app_assoc. exact HI. }
        { intros x Hx. apply Hp. right. exact Hx. }
        { rewrite <- app_assoc. exact HB. }
        { rewrite <- app_assoc. exact Hb. }
        { rewrite <- app_assoc. exact HtB. }
        rewrite A1. exists (q :: l'), s'. split; [reflexivity|]. rewrite <- app_assoc in A2. split; [exact A2|].
        split; [apply sub_take; exact A3|]. destruct A4 as [A4|(A4 & A5 & A6)]; [left; simpl; lia|right].
        subst. split; [reflexivity|]. split; [reflexivity|]. intros x [<-|Hx]; auto.
      + fold tryw. rewrite E. fold trya. assert (Hlim := limit_drop k q r). assert (Hwp := weight_pos q).
        destruct (IH k s1) as (l' & s' & A1 & A2 & A3 & A4); auto; try lia.
        { eapply try_work_inv; [exact Hcs|exact Hest|exact Hvol|exact Hapt|exact Hnames|exact Hch|exact Hbcs|exact Hrow|exact Hspc|exact Hnd|exact Ht|exact HI|exact H0|exact E]. }
        { intros x Hx. apply Hp. right. exact Hx. }
        rewrite A1. exists l', s'. split; [reflexivity|]. split; [exact A2|]. split; [apply sub_skip; exact A3|].
        left. simpl. destruct A4 as [A4|(A4 & _)]; [lia|subst; lia].
  Qed.

  Lemma all_total t l s : 0 <= t <= TIME_INF -> inv l s -> first_ok g ch bcs l s -> subseq l works ->
    (forall q, In q l -> inseparable_parent g (pw_node q) = None) ->
    apt <= limit l -> below (limit l) s -> t <= limit l + Lg + 1 ->
    exists l' s', trya t l s = Some (l', s') /\ below (limit l') s' /\ subseq l' l /\
      ((length l' < length l)%nat \/ (l' = l /\ s' = s /\ (l <> [] -> t < limit l + Lg))).
  Proof.
    intros Ht HI Hf Hsub Hp HB Hb HtB.
    assert (Hlate : forall q r, l = q :: r -> tryw t q s = Some None -> t < limit l + Lg).
    { intros q r -> E. destruct (Z.lt_ge_cases t (limit (q :: r) + Lg)) as [?|Hge]; [assumption|].
      exfalso. apply (first_goes t q r s); auto; lia. }
    destruct Hf as [Ho|(q & r & -> & Ho & Hready & Hs & Htl)].
    - destruct (rest_total t Ht l [] s) as (l' & s' & A1 & A2 & A3 & A4); auto.
      exists l', s'. split; [exact A1|]. split; [exact A2|]. split; [exact A3|]. destruct A4 as [A4|(-> & -> & A6)]; [left; exact A4|right].
      split; [reflexivity|]. split; [reflexivity|]. intros Hne. destruct l as [|q r]; [congruence|]. eapply Hlate; [reflexivity|]. apply A6. left. reflexivity.
    - cbn [trya try_all]. destruct (try_work_total t q [] r s Ht HI (Hp q (or_introl eq_refl)) (Z.le_trans _ _ _ (proj1 Hapt) HB) HB Hb HtB (fun _ => Htl)) as [E|(s1 & E & Hb1)].
      + exfalso. refine (first_scheduled g est names cs nodes ch apt bcs total Hcs Hvol Hnames Hch Hbcs Hrow Hspc t q s (proj1 Ht) _ Hready Hs Htl E).
        destruct HI as (chains & rest & h & _ & _ & _ & _ & _ & Hd & _). inversion Hd; assumption.
      + fold tryw. rewrite E. fold trya. assert (Hlim := limit_drop [] q r). assert (Hwp := weight_pos q). simpl in Hlim, Hb1.
        destruct (rest_total t Ht r [] s1) as (l' & s' & A1 & A2 & A3 & A4); simpl; auto; try lia.
        { apply (try_work_inv g est names cs nodes ch apt bcs total all Hcs Hest Hvol Hapt Hnames Hch Hbcs Hrow Hspc Hnd t q [] r s s1 Ht HI (fun _ => Htl) E). }
        { intros x Hx. apply Hp. right. exact Hx. }
        exists l', s'. split; [exact A1|]. split; [exact A2|]. split; [apply sub_skip; exact A3|].
        left. simpl. destruct A4 as [A4|(A4 & _)]; [lia|subst; lia].
  Qed.

  Hypothesis Htop : Top + Lg + 1 < TIME_INF.

  Lemma limit_le l : limit l <= Top.
  Proof.
    unfold limit. assert (X : 0 <= zsum (map weight l)); [|lia]. apply zsum_nonneg. apply Forall_forall. intros x Hx.
    apply in_map_iff in Hx as (q & <- & _). assert (A := weight_pos q). lia.
  Qed.

  Lemma limit_mono a b : subseq a b -> limit b <= limit a /\ ((length a < length b)%nat -> limit b + Lg + 1 <= limit a).
  Proof.
    intros A3. unfold limit. induction A3 as [k|x a b H IH|x a b H IH].
    - simpl. assert (X : 0 <= zsum (map weight k)).
      { apply zsum_nonneg. apply Forall_forall. intros y Hy. apply in_map_iff in Hy as (q & <- & _). assert (A := weight_pos q). lia. }
      split; [change (zsum []) with 0; lia|]. intros Hlt. destruct k as [|q k]; [simpl in Hlt; lia|].
      cbn [map]. change (zsum (weight q :: map weight k)) with (weight q + zsum (map weight k)). change (zsum []) with 0.
      assert (A := weight_pos q). assert (X2 : 0 <= zsum (map weight k)); [|lia].
      apply zsum_nonneg. apply Forall_forall. intros y Hy. apply in_map_iff in Hy as (q' & <- & _). assert (A' := weight_pos q'). lia.
    - cbn [map]. change (zsum (weight x :: map weight b)) with (weight x + zsum (map weight b)). assert (A := weight_pos x). destruct IH. split; lia.
    - cbn [map length]. change (zsum (weight x :: map weight b)) with (weight x + zsum (map weight b)).
      change (zsum (weight x :: map weight a)) with (weight x + zsum (map weight a)). destruct IH as [I1 I2]. split; [lia|]. intros Hlt. specialize (I2 ltac:(lia)). lia.
  Qed.

  Definition okl (ckpt : nat) (start : Z) (l : list pwork) (s : pstate) : Prop :=
    inv l s /\ first_ok g ch bcs l s /\ subseq l works /\ (forall q, In q l -> inseparable_parent g (pw_node q) = None) /\
    apt <= limit l /\ below (limit l) s /\ -1 <= start <= limit l + Lg /\ (ckpt <= length (ps_times s))%nat.

  (* every work placed adds two times *)
  Lemma add_time_length t l : length (add_time t l) = S (length l).
  Proof. induction l as [|x l IH]; cbn [add_time]; [reflexivity|]. destruct (t <? x); simpl; [reflexivity|]. rewrite IH. reflexivity. Qed.
  Lemma try_all_times t : forall l s l' s', trya t l s = Some (l', s') ->
    (length (ps_times s') + 2 * length l' = length (ps_times s) + 2 * length l)%nat.
  Proof.
    unfold trya. induction l as [|q l IH]; intros s l' s' H; cbn [try_all] in H; [injection H as <- <-; reflexivity|].
    destruct (try_work g est ch apt total t q s) as [[s1|]|] eqn:E; [| |discriminate].
    - specialize (IH _ _ _ H). unfold try_work in E. destruct (jit_can_schedule _ _ _ _ _ _ _) as [[|]|]; try discriminate.
      destruct (apply_spec _ _ _) as [tm|]; [|discriminate]. destruct (jit_schedule _ _ _ _ _ _ _ _ _ _) as [[sd' tl']|]; [|discriminate].
      injection E as <-. cbn [ps_times] in IH. rewrite !add_time_length in IH. cbn [length]. lia.
    - destruct (try_all g est ch apt total t l s) as [[l1 s1]|] eqn:El; [|discriminate]. injection H as <- <-. specialize (IH _ _ _ El). cbn [length]. lia.
  Qed.
  Lemma loop_step ckpt start prev l s : l <> [] -> okl ckpt start l s ->
    exists ckpt' start' prev' l' s',
      (forall fuel, parallel_loop g est ch apt total (S fuel) ckpt start prev l s = parallel_loop g est ch apt total fuel ckpt' start' prev' l' s') /\
      okl ckpt' start' l' s' /\ (length (ps_times s') + 2 * length l' = length (ps_times s) + 2 * length l)%nat /\
      ((length l' < length l)%nat \/
       (l' = l /\ s' = s /\ ((length (ps_times s) - ckpt' < length (ps_times s) - ckpt)%nat \/
                          (ckpt' = ckpt /\ (Z.to_nat (limit l + Lg - start') < Z.to_nat (limit l + Lg - start))%nat)))).
  Proof.
    intros Hne (HI & Hf & Hsub & Hp & HB & Hb & Hst & Hck). assert (Hlim := limit_le l).
    assert (Hpass : forall t prev', 0 <= t <= limit l + Lg + 1 ->
      (forall fuel, parallel_loop g est ch apt total (S fuel) ckpt start prev l s =
         match trya t l s with
         | None => Raised
         | Some (l', s') => parallel_loop g est ch apt total fuel (Nat.min (S ckpt) (length (ps_times s'))) t prev' l' s'
         end) ->
      ((ckpt < length (ps_times s))%nat \/ (ckpt = length (ps_times s) /\ start < t)) ->
      exists ckpt' start' prev' l' s',
      (forall fuel, parallel_loop g est ch apt total (S fuel) ckpt start prev l s = parallel_loop g est ch apt total fuel ckpt' start' prev' l' s') /\
      okl ckpt' start' l' s' /\ (length (ps_times s') + 2 * length l' = length (ps_times s) + 2 * length l)%nat /\
      ((length l' < length l)%nat \/
       (l' = l /\ s' = s /\ ((length (ps_times s) - ckpt' < length (ps_times s) - ckpt)%nat \/
                          (ckpt' = ckpt /\ (Z.to_nat (limit l + Lg - start') < Z.to_nat (limit l + Lg - start))%nat))))).
    { intros t prev' Ht Hloop Hcase. assert (Ht' : 0 <= t <= TIME_INF) by lia.
      destruct (all_total t l s Ht' HI Hf Hsub Hp HB Hb ltac:(lia)) as (l' & s' & A1 & A2 & A3 & A4).
      exists (Nat.min (S ckpt) (length (ps_times s'))), t, prev', l', s'.
      split; [intros fuel; rewrite Hloop, A1; reflexivity|].
      destruct (try_all_inv g est names cs nodes ch apt bcs total all Hcs Hest Hvol Hapt Hnames Hch Hbcs Hrow Hspc Hnd t l s l' s' Ht' HI Hf A1) as [C1 C2].
      assert (Hmono : limit l <= limit l' /\ ((length l' < length l)%nat -> limit l + Lg + 1 <= limit l')).
      { exact (limit_mono _ _ A3). }
      destruct Hmono as [M1 M2].
      assert (Hts : t <= limit l' + Lg).
      { destruct A4 as [A4|(-> & -> & A5)]; [specialize (M2 A4); lia|]. specialize (A5 Hne). lia. }
      split.
      - split; [exact C1|]. split; [left; exact C2|]. split; [eapply subseq_trans; eauto|]. split; [intros q Hq; apply Hp; eapply subseq_in; eauto|].
        split; [lia|]. split; [exact A2|]. split; [lia|]. lia.
      - split; [exact (try_all_times t l s l' s' A1)|]. destruct A4 as [A4|(-> & -> & A5)]; [left; exact A4|right]. split; [reflexivity|]. split; [reflexivity|]. specialize (A5 Hne).
        destruct Hcase as [Hcase|[Hcase Hlt]]; [left; lia|right]. split; lia. }
    destruct (nth_error (ps_times s) ckpt) as [t|] eqn:En.
    - assert (Hlt : (ckpt < length (ps_times s))%nat) by (apply nth_error_Some; congruence).
      assert (Ht : 0 <= t <= limit l).
      { split; [|apply (proj2 (proj2 Hb)); eapply nth_error_In; eauto].
        destruct HI as (chains & rest & h & _ & _ & _ & _ & _ & _ & Htm). rewrite Forall_forall in Htm. apply (Htm t). eapply nth_error_In; eauto. }
      destruct (Z.eqb_spec prev t) as [E|E].
      + exists (S ckpt), t, prev, l, s. split; [|split; [|split; [reflexivity|right]]].
        * intros fuel. cbn [parallel_loop]. destruct l; [congruence|]. rewrite En. destruct (Z.eqb_spec prev t); [reflexivity|congruence].
        * split; [exact HI|]. split; [exact Hf|]. split; [exact Hsub|]. split; [exact Hp|]. split; [exact HB|]. split; [exact Hb|]. lia.
        * split; [reflexivity|]. split; [reflexivity|]. left. lia.
      + apply (Hpass t t); [lia| |left; exact Hlt]. intros fuel. cbn [parallel_loop]. destruct l; [congruence|]. rewrite En.
        destruct (Z.eqb_spec prev t); [congruence|]. unfold is_inf. destruct (Z.eqb_spec (Z.abs t) TIME_INF); [lia|]. reflexivity.
    - assert (Hge : (length (ps_times s) <= ckpt)%nat) by (apply nth_error_None; exact En).
      assert (Et : tadd start 1 = start + 1).
      { inf. unfold tadd. destruct (set_time_cases (start + 1)) as [[E1 R]|[[R1 R2]|[R1 R2]]]; lia. }
      apply (Hpass (tadd start 1) prev); [lia| |right; lia]. intros fuel. cbn [parallel_loop]. destruct l; [congruence|]. rewrite En. reflexivity.
  Qed.

  Variable M : nat.
  Definition okm (ckpt : nat) (start : Z) (l : list pwork) (s : pstate) : Prop :=
    okl ckpt start l s /\ (length (ps_times s) + 2 * length l <= M)%nat.
  Lemma loop_ends : forall n m k ckpt start prev l s, (length l <= n)%nat -> (length (ps_times s) - ckpt <= m)%nat -> (m <= M)%nat ->
    (Z.to_nat (limit l + Lg - start) <= k)%nat -> (k <= Z.to_nat (Top + Lg + 1))%nat -> okm ckpt start l s ->
    exists s', forall fuel, ((n * (M + 1) + m) * (Z.to_nat (Top + Lg + 1) + 1) + k + 1 <= fuel)%nat ->
      parallel_loop g est ch apt total fuel ckpt start prev l s = Finished [] s'.
  Proof.
    set (K := Z.to_nat (Top + Lg + 1)).
    induction n as [n IHn] using lt_wf_ind. induction m as [m IHm] using lt_wf_ind. induction k as [k IHk] using lt_wf_ind.
    intros ckpt start prev l s Hn Hm HmM Hk HkK [Hok HM].
    destruct l as [|q0 l0] eqn:El; [exists s; intros [|fuel] Hf; [lia|reflexivity]|]. rewrite <- El in *.
    destruct (loop_step ckpt start prev l s ltac:(subst; discriminate) Hok) as (ckpt' & start' & prev' & l' & s' & H1 & H2 & HT & H3).
    assert (Hok' : okm ckpt' start' l' s') by (split; [exact H2|lia]).
    assert (HK' : (Z.to_nat (limit l' + Lg - start') <= K)%nat).
    { destruct H2 as (_ & _ & _ & _ & _ & _ & Hst & _). assert (L := limit_le l'). unfold K. lia. }
    assert (H4 : exists f s2, (S f <= (n * (M + 1) + m) * (K + 1) + k + 1)%nat /\
              forall fuel, (f <= fuel)%nat -> parallel_loop g est ch apt total fuel ckpt' start' prev' l' s' = Finished [] s2).
    { destruct H3 as [H3|(-> & -> & [H3|[-> H3]])].
      - destruct (IHn (length l') ltac:(lia) M K ckpt' start' prev' l' s' ltac:(lia) ltac:(lia) ltac:(lia) HK' ltac:(lia) Hok') as [s2 E].
        eexists _, s2. split; [|exact E]. assert (length l' * (M + 1) + M + 1 <= n * (M + 1) + m)%nat by nia. nia.
      - destruct (IHm (length (ps_times s) - ckpt')%nat ltac:(lia) K ckpt' start' prev' l s Hn ltac:(lia) ltac:(lia) HK' ltac:(lia) Hok') as [s2 E].
        eexists _, s2. split; [|exact E]. nia.
      - destruct (IHk (Z.to_nat (limit l + Lg - start')) ltac:(lia) ckpt start' prev' l s Hn Hm HmM ltac:(lia) ltac:(lia) Hok') as [s2 E].
        eexists _, s2. split; [|exact E]. lia. }
    destruct H4 as (f & s2 & Hf & H4). exists s2. intros [|fuel] Hfu; [lia|]. rewrite H1. apply H4. lia.
  Qed.
End Safe.
