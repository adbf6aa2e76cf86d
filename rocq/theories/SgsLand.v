(** The parallel scheme of decoding chromosomes on a site. *)
From Coq Require Import ZArith List Bool Lia Arith ZifyBool ZifyNat Permutation Sorted.
From Verif Require Import TimeModel MomentumModel MomentumSpec MomentumHistory MomentumTeamProofs
  JITModel JITHistory JITProofs GraphModel ScheduleModel ScheduleSpec ContractorProofs ContractorTheorems TeamProofs ScheduleProofs
  SchedulePoolProofs ScheduleInv ScheduleSafe JitScheduleInv JitScheduleSafe
  ZoneModel ZoneProofs ZoneTheorems SiteModel SiteProofs SiteZoneProofs SiteSupplyProofs SiteTheorems JitSiteModel JitSiteProofs JitSiteZone
  SgsModel SgsSpec SgsSerial SgsParallel SgsParallelSafe SgsLandModel.
From Verif Require SupplyModel SupplySpec SupplyProofs4.
Import ListNotations.
Local Open Scope Z_scope.

Section Run.
  Variables (g : graph) (est : nat -> list worker -> Z) (names : list nat) (cs : list contractor) (nodes : list nat)
            (ch : chromosome) (apt : Z) (bcs : list contractor) (total : nat) (all : list (list nat)).
  Variable site : Type.
  Variable material_time : site -> nat -> Z -> option Z.
  Variable deliver : site -> nat -> Z -> option (Z * site).
  Variable zone_time : site -> nat -> Z -> Z -> option Z.
  Variable occupy : site -> Z -> nat -> Z -> Z -> option site.
  Variable moment : site -> nat -> Z -> Z -> option bool.
  Variable x0 : site.
  Variable at_first : nat -> Prop.
  Hypothesis Hmat : forall x n t r, material_time x n t = Some r -> r <= TIME_INF.
  Hypothesis Hdel : forall x n t r x', deliver x n t = Some (r, x') -> r <= TIME_INF.
  Hypothesis Hzone : forall x n t e r, zone_time x n t e = Some r -> - TIME_INF <= r <= TIME_INF.
  Hypothesis Hcs : contractors_ok cs.
  Hypothesis Hest : estimator_ok est.
  Hypothesis Hvol : forall n, 0 <= volume_of g n.
  Hypothesis Hapt : 0 <= apt <= TIME_INF.
  Hypothesis Hnames : NoDup names.
  Hypothesis Hch : chromosome_ok ch.
  Hypothesis Hbcs : with_borders names ch 0 cs = Some bcs.
  Hypothesis Hrow : forall n amounts ci k a b, gene nodes ch n amounts ci -> row_amount names amounts k a ->
    border_for names (ch_borders ch) ci k b -> a <= b.
  Hypothesis Hspc : forall n amounts ci k a m, gene nodes ch n amounts ci -> row_amount names amounts k a -> 0 < a ->
    spec_count (ch_spec ch n) (reqs_of g n) k m -> m <= a.
  Hypothesis Hnd : NoDup (concat all).

  Let p := pool_of bcs.
  Let staff (n : nat) (w : swork) : Prop := parallel_gene_team g names cs nodes ch n (sw_team w) (sw_contractor w).
  Let sched1 := jsite_schedule g est site material_time deliver zone_time occupy.
  Let try1 := site_try_work g est ch apt total site material_time deliver zone_time occupy moment.

  (** the invariant of the scheme without a site, with the chains in the order of placement *)
  Definition pbase (chains : list (list nat)) (l : list pwork) (s : sstate site) : Prop :=
    exists rest h, jtinv g p staff chains (ss_sched s) (fst (ss_tl s)) h /\ after_parents g ch chains /\
      singles_last g est names cs nodes ch (ss_sched s) /\
      chains_of g (map pw_node l) = Some rest /\ Permutation (chains ++ rest) all /\
      Forall (decoded g names cs nodes ch est) l /\ Forall (fun x => 0 <= x <= TIME_INF) (ss_times s).

  (** What a successful attempt does. *)
  Record called (t : Z) (q : pwork) (chains : list (list nat)) (s s' : sstate site) (c : list nat) (team : list worker) (st fin : Z) (new : sched) : Prop := {
    cl_chain : chain_of g (pw_node q) = Some c;
    cl_start : 0 <= st <= TIME_INF;
    cl_moment : pw_pos q <> 0%nat -> st = t;
    cl_free : sp_independent (ch_spec ch (pw_node q)) = true \/ moment (snd (ss_tl s)) (pw_node q) t (pw_exec q) = Some true;
    cl_min : sp_independent (ch_spec ch (pw_node q)) = true \/ min_start_time g (ss_sched s) (pw_node q) <= t;
    cl_exec : 0 <= pw_exec q <= TIME_INF;
    cl_call : sched1 (ss_sched s) (ss_tl s) (pw_node q) team (pw_contractor q)
      (WSpec (sp_contractors (ch_spec ch (pw_node q))) (sp_workers (ch_spec ch (pw_node q))) (Some (pw_exec q)) (sp_independent (ch_spec ch (pw_node q))))
      (Some st) apt = Some (ss_sched s', ss_tl s');
    cl_sched : ss_sched s' = rev new ++ ss_sched s;
    cl_nodes : map fst new = c;
    cl_consecutive : consecutive team (pw_contractor q) st new fin;
    cl_fin : fin <= TIME_INF;
    cl_keys : map fst (ss_sched s) = rev (concat chains);
    cl_apart : forall m, In m (concat chains) -> In m c -> False
  }.

  Lemma site_place_single team c curr n y sd x fin sd' x' : jsite_place g est site deliver team c curr [n] (Some [y]) sd x = Some (fin, sd', x') ->
    exists st, sd' = (n, SW st (tadd st y) team c) :: sd.
  Proof.
    cbn [jsite_place]. destruct (match inseparable_parent g n with Some _ => _ | None => true end); [|discriminate].
    destruct (deliver _ _ _) as [[a x1]|]; [|discriminate]. intros [= _ <- _]. eauto.
  Qed.

  Lemma site_try_inv t q l1 l2 chains s s' : 0 <= t <= TIME_INF -> pbase chains (l1 ++ q :: l2) s ->
    (pw_pos q = 0%nat -> fst (ss_tl s) = jit_init p) -> try1 t q s = Some (Some s') ->
    exists c team st fin new, called t q chains s s' c team st fin new /\ pbase (chains ++ [c]) (l1 ++ l2) s'.
  Proof.
    intros Ht (rest & h & HI & HA & HS & Hrest & Hperm & Hdec & Htm) Hfirst H. unfold try1, site_try_work in H.
    destruct s as [sd [tl x] times]. cbn [ss_sched ss_tl ss_times fst snd] in *.
    set (n := pw_node q) in *. set (sp := ch_spec ch n) in *.
    destruct (site_can_schedule g site moment sd (tl, x) n (pw_team q) (sp_independent sp) t (pw_exec q)) as [[|]|] eqn:Escan; try discriminate.
    unfold site_can_schedule in Escan. cbn [fst snd] in Escan.
    destruct (jit_can_schedule g sd tl n (pw_team q) (sp_independent sp) t) as [[|]|] eqn:Ecan; try discriminate.
    destruct (apply_spec (sp_workers sp) (reqs_of g n) (pw_team q)) as [team|] eqn:Ea; [|discriminate].
    set (st := if Nat.eqb (S (pw_pos q)) total then tmax t 0 else if Nat.eqb (pw_pos q) 0 then apt else t) in H.
    destruct (jsite_schedule _ _ _ _ _ _ _ _ _ _ _ _ _ _ _) as [[sd' [tl' x']]|] eqn:Es; [|discriminate]. injection H as <-.
    cbn [ss_sched ss_tl ss_times fst snd] in *.
    assert (Hq : decoded g names cs nodes ch est q) by (rewrite Forall_forall in Hdec; apply Hdec; apply in_or_app; right; left; reflexivity).
    destruct (decoded_teams g names cs nodes ch bcs Hcs Hnames Hch Hbcs Hrow Hspc est q team Hq Ea) as (T1 & T2 & T3 & T4 & T5).
    assert (Hex := exec_range g est names cs nodes ch apt Hest Hvol Hapt Hch Hrow Hspc q Hq).
    rewrite map_app in Hrest. cbn [map] in Hrest. fold n in Hrest.
    destruct (chains_of_app _ _ _ _ Hrest) as (r1 & r2' & -> & R1 & R2). cbn [chains_of] in R2.
    destruct (chain_of g n) as [c|] eqn:Ec; [|discriminate]. destruct (chains_of g (map pw_node l2)) as [r2|] eqn:R3; [|discriminate].
    injection R2 as <-.
    assert (Hperm' : Permutation ((chains ++ [c]) ++ r1 ++ r2) all).
    { eapply perm_trans; [|exact Hperm]. rewrite <- app_assoc. apply Permutation_app_head. cbn [app]. apply Permutation_middle. }
    assert (Hnd' : NoDup (concat (chains ++ [c]))).
    { assert (X := Permutation_NoDup (Permutation_sym (concat_perm _ _ Hperm')) Hnd). rewrite concat_app in X. eapply nodup_app_l; eauto. }
    assert (I1 := j_inv _ _ _ _ _ _ _ HI).
    (* workers *)
    assert (Hfree : jit_workers_free (sp_independent sp) (pw_team q) t tl = Some true).
    { unfold jit_can_schedule in Ecan. destruct (sp_independent sp); [exact Ecan|]. rewrite Ec in Ecan.
      destruct (forallb _ c); [|discriminate]. destruct (t <? _); [discriminate|exact Ecan]. }
    assert (Hmin : sp_independent sp = true \/ min_start_time g sd n <= t).
    { unfold jit_can_schedule in Ecan. destruct (sp_independent sp); [left; reflexivity|right]. rewrite Ec in Ecan.
      destruct (forallb _ c); [|discriminate]. destruct (Z.ltb_spec t (min_start_time g sd n)); [discriminate|lia]. }
    assert (Hlate0 : late_enough (sp_independent sp) (agents_of (pw_team q)) tl t).
    { unfold jit_workers_free in Hfree. rewrite <- (to_workers_agents (pw_team q)) in Hfree.
      destruct (find_agents_spec p tl (sp_independent sp) (agents_of (pw_team q)) I1 T3 0) as (r & F1 & F2 & F3 & F4 & _).
      rewrite F1 in Hfree. injection Hfree as Hle. apply (late_mono p _ _ _ r t I1 T3); [lia|]. split; assumption. }
    assert (Hlate1 := late_sub g names cs nodes ch total Hvol Hrow Hspc _ _ _ _ _ Hlate0 T5).
    assert (Hst : 0 <= st <= TIME_INF /\ late_enough (sp_independent sp) (agents_of team) tl st /\ (pw_pos q <> 0%nat -> st = t)).
    { unfold st. destruct (Nat.eqb (S (pw_pos q)) total).
      - rewrite tmax_spec. split; [lia|]. split; [|lia]. eapply late_mono; [exact I1|exact T4| |exact Hlate1]. lia.
      - destruct (Nat.eqb_spec (pw_pos q) 0) as [E0|E0]; [|auto].
        split; [exact Hapt|]. split; [|congruence]. rewrite (Hfirst E0). apply late_init; [lia|exact T4]. }
    destruct Hst as (Hst & Hlate & Hstt). clearbody st.
    set (sp' := WSpec (sp_contractors sp) (sp_workers sp) (Some (pw_exec q)) (sp_independent sp)) in *.
    assert (Hsp' : spec_ok sp').
    { destruct Hch as (_ & _ & Hsp). destruct (Hsp n) as [[Hsp1 _] _]. split; [exact Hsp1|exact Hex]. }
    assert (Hkeys := j_keys _ _ _ _ _ _ _ HI).
    assert (Es' := Es). rewrite <- (to_workers_agents team) in Es.
    destruct (jsite_schedule_spec g est site material_time deliver zone_time occupy Hmat Hdel Hzone Hest p Hvol
      sd tl x n (agents_of team) (pw_contractor q) sp' st apt sd' tl' x' h Hsp' I1 (j_cov _ _ _ _ _ _ _ HI) (j_le _ _ _ _ _ _ _ HI) T4 Hst Hlate Es)
      as (chain & new & fin & A1 & A2 & A3 & A4 & A5 & A6 & A7 & A8 & A9).
    rewrite Ec in A1. injection A1 as <-.
    destruct (jplaced_inv g p Hvol staff n (pw_contractor q) (agents_of team) st chains sd tl h sd' tl' c new fin) as (Hne & h' & HI'); auto.
    { destruct T4 as [T41 T42]. split; [exact T41|]. intros a m Hin. destruct (T42 a m Hin) as (cap & _ & ?). lia. }
    { lia. }
    { intros w E1 E2. unfold staff. rewrite E1, E2, to_workers_agents. exact T2. }
    { apply A9, (j_prec _ _ _ _ _ _ _ HI). }
    rewrite to_workers_agents in A4.
    exists c, team, st, fin, new. split.
    { constructor; cbn [ss_sched ss_tl fst snd]; auto.
      - destruct (sp_independent (ch_spec ch (pw_node q))) eqn:Ei; [left; reflexivity|right].
        change (sp_independent sp) with (sp_independent (ch_spec ch (pw_node q))) in Escan. rewrite Ei in Escan. exact Escan.
      - intros m H1 H2. rewrite concat_app in Hnd'. cbn [concat] in Hnd'. rewrite app_nil_r in Hnd'. eapply nodup_app_disj; eauto. }
    exists (r1 ++ r2), h'. cbn [ss_sched ss_tl ss_times fst snd]. split; [exact HI'|]. split; [|split; [|split; [|split; [exact Hperm'|split]]]].
    - clear Hstt. intros k1 hd r k2 E Hind m y Hm Hx. destruct k2 as [|z k2] using rev_ind.
      + apply app_inj_tail in E as [<- E]. destruct (chain_head _ _ _ Ec) as [r0 Er0]. rewrite E in Er0. injection Er0 as -> ->. rewrite E in Ec.
        unfold jit_can_schedule in Ecan. unfold sp in Ecan. rewrite Hind, Ec in Ecan.
        destruct (forallb _ (n :: r0)) eqn:Ef; [|discriminate].
        rewrite forallb_forall in Ef. specialize (Ef m Hm). rewrite forallb_forall in Ef. specialize (Ef y Hx).
        apply orb_prop in Ef as [Ef|Ef].
        * apply existsb_exists in Ef as (y' & Hy' & Ey). apply Nat.eqb_eq in Ey. subst y'. auto.
        * right. destruct (sd_get sd y) as [w|] eqn:Eg; [|discriminate]. apply sd_get_in_weak, in_sd_key in Eg.
          rewrite Hkeys in Eg. apply in_rev in Eg. exact Eg.
      + clear IHk2. assert (E' : chains ++ [c] = (k1 ++ (hd :: r) :: k2) ++ [z]) by (rewrite E, <- app_assoc; reflexivity).
        apply app_inj_tail in E' as [E' _]. eapply HA; eauto.
    - intros m w Hin Hc1 Hp1. unfold jsite_schedule in Es'. rewrite Ec in Es'. cbn [sp_time sp'] in Es'.
      destruct (jsite_place g est site deliver team (pw_contractor q) st c _ sd x) as [[[fin1 sd1] x1]|] eqn:Ep; [|discriminate].
      destruct (jit_update _ _ _ _) as [tl1|]; [|discriminate]. destruct (occupy _ _ _ _ _) as [x2|]; [|discriminate]. injection Es' as -> -> ->.
      destruct (in_dec Nat.eq_dec m c) as [Hmc|Hmc].
      + assert (Hcases : c = [m] \/ c <> [m]) by (destruct (list_eq_dec Nat.eq_dec c [m]); auto).
        destruct Hcases as [Hcm|Hcm].
        * assert (m = n) by (destruct (chain_head _ _ _ Ec) as [r0 Er0]; rewrite Hcm in Er0; congruence). subst m. rewrite Hcm in Ep.
          cbn [map] in Ep. rewrite (assigned_single g names cs nodes ch total Hvol Hrow Hspc _ _ (Hvol n) Hex) in Ep.
          destruct (site_place_single _ _ _ _ _ _ _ _ _ _ Ep) as (st1 & ->). destruct Hin as [[= <-]|Hin].
          -- exists (pw_team q). split; [exact T1|]. cbn [sw_finish sw_start]. f_equal.
             destruct Hq as (w0 & am & ci & ct & _ & _ & _ & _ & _ & Eq). fold n in Eq.
             destruct (sp_time (ch_spec ch n)); [congruence|]. unfold cascade_time in Eq. rewrite Hp1, Hc1 in Eq. cbn [fold_left] in Eq.
             injection Eq as <-. unfold tadd. rewrite Z.add_0_l. destruct (Hest n (pw_team q)) as [E1 E2]. inf.
             destruct (set_time_cases (est n (pw_team q))) as [[E3 _]|[[E4 _]|[E4 E3]]]; lia.
          -- eapply HS; eauto.
        * exfalso. destruct (chain_head _ _ _ Ec) as [r0 Er0]. rewrite Er0 in Hmc, Ec, Hcm. destruct Hmc as [<-|Hmc]; [congruence|].
          destruct (chain_tail_inseparable g n _ m Ec) as (y & Hx); [exact Hmc|congruence].
      + apply HS; [|exact Hc1|exact Hp1].
        rewrite A2 in Hin. apply in_app_or in Hin as [Hin|Hin]; [|exact Hin].
        exfalso. apply Hmc. rewrite <- A3. apply in_rev in Hin. apply in_sd_key in Hin. exact Hin.
    - rewrite map_app. apply chains_of_join; assumption.
    - apply Forall_app in Hdec as [Hd1 Hd2]. apply Forall_app. split; [exact Hd1|]. inversion Hd2; assumption.
    - rewrite Forall_forall in *. intros y Hx. apply add_time_in in Hx as [->|Hx].
      + inf. assert (A := tadd_ge st (pw_exec q) (proj1 Hex) (proj2 Hst)). assert (B := set_time_range (st + pw_exec q)). unfold tadd in *. lia.
      + apply add_time_in in Hx as [->|Hx]; [exact Hst|auto].
  Qed.

  (** ** Any invariant over the run *)
  Definition s_first (l : list pwork) (s : sstate site) : Prop :=
    others l \/ exists q r, l = q :: r /\ others r /\ ready g ch q /\ ss_sched s = [] /\ ss_tl s = (jit_init p, x0) /\
      (forall t e, moment x0 (pw_node q) t e <> Some false) /\ at_first (pw_node q).

  Section Inv.
    Variable Inv : list (list nat) -> sstate site -> Prop.
    Hypothesis Hstep : forall t q chains s s' c team st fin new, Inv chains s -> (pw_pos q = 0%nat -> at_first (pw_node q)) ->
      called t q chains s s' c team st fin new -> Inv (chains ++ [c]) s'.
    Let whole (l : list pwork) (s : sstate site) := exists chains, pbase chains l s /\ Inv chains s.

    Lemma whole_step t q l1 l2 s s' : 0 <= t <= TIME_INF -> whole (l1 ++ q :: l2) s ->
      (pw_pos q = 0%nat -> ss_tl s = (jit_init p, x0) /\ at_first (pw_node q)) -> try1 t q s = Some (Some s') -> whole (l1 ++ l2) s'.
    Proof.
      intros Ht (chains & HB & HI) Hf H.
      destruct (site_try_inv t q l1 l2 chains s s' Ht HB) as (c & team & st & fin & new & C & B); [intros E; rewrite (proj1 (Hf E)); reflexivity|exact H|].
      exists (chains ++ [c]). split; [exact B|]. eapply Hstep; eauto. intros E. apply (Hf E).
    Qed.

    Lemma site_first_scheduled t q s : 0 <= t -> decoded g names cs nodes ch est q -> ready g ch q ->
      ss_sched s = [] -> ss_tl s = (jit_init p, x0) -> (forall t e, moment x0 (pw_node q) t e <> Some false) -> try1 t q s <> Some None.
    Proof.
      intros Ht Hq Hfirst Hs Htl Hmo H.
      assert (Hw : team_within p (agents_of (pw_team q))). { exact (proj2 (raw_within g names cs nodes ch bcs Hcs Hnames Hch Hbcs Hrow Hspc est q Hq)). }
      destruct (jit_init_inv p) as [I1 _].
      { apply pool_of_ok. eapply bordered_ok; eauto. }
      assert (Hfree : jit_workers_free (sp_independent (ch_spec ch (pw_node q))) (pw_team q) t (jit_init p) = Some true).
      { unfold jit_workers_free. rewrite <- (to_workers_agents (pw_team q)).
        destruct (find_agents_spec p (jit_init p) (sp_independent (ch_spec ch (pw_node q))) (agents_of (pw_team q)) I1 Hw 0) as (r & F1 & _).
        assert (F2 : r <= 0) by (eapply (find_agents_le 0 _ _ (jit_init_times 0 p (Z.le_refl 0))); [|exact F1]; lia).
        rewrite F1. destruct (Z.leb_spec r t); [reflexivity|lia]. }
      unfold try1, site_try_work, site_can_schedule, jit_can_schedule in H. rewrite Hs, Htl in H. cbn [fst snd] in H.
      destruct (sp_independent (ch_spec ch (pw_node q))) eqn:Ei.
      - rewrite Hfree in H. destruct (apply_spec _ _ _); [|discriminate]. destruct (jsite_schedule _ _ _ _ _ _ _ _ _ _ _ _ _ _ _) as [[? ?]|]; discriminate.
      - destruct (chain_of g (pw_node q)) as [c|] eqn:Ec; [|discriminate].
        assert (Ef : forallb (fun m => forallb (fun x => existsb (Nat.eqb x) c || match sd_get [] x with Some _ => true | None => false end) (parents g m)) c = true).
        { apply forallb_forall. intros n Hn. apply forallb_forall. intros x Hx. apply orb_true_intro. left.
          apply existsb_exists. exists x. split; [eapply Hfirst; eauto|apply Nat.eqb_refl]. }
        rewrite Ef in H. assert (Em : min_start_time g [] (pw_node q) <= 0).
        { unfold min_start_time. destruct (max_default0_in (parent_times [] (edges_to g (pw_node q)))) as [->|E]; [lia|].
          apply parent_times_in in E as (e & w & _ & Hw' & _). discriminate. }
        destruct (Z.ltb_spec t (min_start_time g [] (pw_node q))); [lia|]. rewrite Hfree in H.
        destruct (moment x0 (pw_node q) t (pw_exec q)) as [[|]|] eqn:Emo; [|eapply Hmo; eauto|discriminate].
        destruct (apply_spec _ _ _); [|discriminate]. destruct (jsite_schedule _ _ _ _ _ _ _ _ _ _ _ _ _ _ _) as [[? ?]|]; discriminate.
    Qed.

    Lemma whole_rest t : 0 <= t <= TIME_INF -> forall r k s l' s', whole (k ++ r) s -> others r ->
      site_try_all g est ch apt total site material_time deliver zone_time occupy moment t r s = Some (l', s') -> whole (k ++ l') s' /\ others l'.
    Proof.
      intros Ht. induction r as [|q r IH]; intros k s l' s' HI Ho H; cbn [site_try_all] in H.
      - injection H as <- <-. split; [exact HI|intros q []].
      - assert (Ho' : others r) by (intros x Hx; apply Ho; right; exact Hx). fold (try1 t q s) in H.
        destruct (try1 t q s) as [[s1|]|] eqn:E; [| |discriminate].
        + eapply IH; [|exact Ho'|exact H]. eapply whole_step; [exact Ht|exact HI| |exact E].
          intros E0. exfalso. apply (Ho q); [left; reflexivity|exact E0].
        + destruct (site_try_all _ _ _ _ _ _ _ _ _ _ _ t r s) as [[l1 s1]|] eqn:E1; [|discriminate]. injection H as <- <-.
          destruct (IH (k ++ [q]) s l1 s1) as [A B]; auto; [rewrite <- app_assoc; exact HI|].
          rewrite <- app_assoc in A. split; [exact A|]. intros x [<-|Hx]; [apply Ho; left; reflexivity|auto].
    Qed.
    Lemma whole_all t l s l' s' : 0 <= t <= TIME_INF -> whole l s -> s_first l s ->
      site_try_all g est ch apt total site material_time deliver zone_time occupy moment t l s = Some (l', s') -> whole l' s' /\ others l'.
    Proof.
      intros Ht HI [Ho|(q & r & -> & Ho & Hready & Hs & Htl & Hmo & Haf)] H; [apply (whole_rest t Ht l [] s l' s'); auto|].
      destruct (Nat.eq_dec (pw_pos q) 0) as [E0|E0].
      2: { apply (whole_rest t Ht (q :: r) [] s l' s'); auto. intros x [<-|Hx]; auto. }
      cbn [site_try_all] in H. assert (Hq : decoded g names cs nodes ch est q).
      { destruct HI as (chains & (rest & h & _ & _ & _ & _ & _ & Hd & _) & _). inversion Hd; assumption. }
      fold (try1 t q s) in H. destruct (try1 t q s) as [[s1|]|] eqn:E; [| |discriminate].
      - apply (whole_rest t Ht r [] s1 l' s'); auto. apply (whole_step t q [] r s s1); auto.
      - exfalso. refine (site_first_scheduled t q s (proj1 Ht) Hq Hready Hs Htl Hmo E).
    Qed.
    Lemma whole_loop : forall fuel ckpt start prev l s l' s', whole l s -> s_first l s -> -1 <= start <= TIME_INF ->
      site_parallel_loop g est ch apt total site material_time deliver zone_time occupy moment fuel ckpt start prev l s = SFinished l' s' -> whole l' s'.
    Proof.
      induction fuel as [|fuel IH]; intros ckpt start prev l s l' s' HI Hf Hst H; cbn [site_parallel_loop] in H; [discriminate|].
      destruct l as [|q l]; [injection H as <- <-; exact HI|].
      destruct (nth_error (ss_times s) ckpt) as [t|] eqn:En.
      - assert (Ht : 0 <= t <= TIME_INF).
        { destruct HI as (chains & (rest & h & _ & _ & _ & _ & _ & _ & Htm) & _). rewrite Forall_forall in Htm. apply Htm. eapply nth_error_In; eauto. }
        destruct (prev =? t); [eapply IH; [exact HI|exact Hf| |exact H]; lia|].
        destruct (is_inf t); [injection H as <- <-; exact HI|].
        destruct (site_try_all _ _ _ _ _ _ _ _ _ _ _ t (q :: l) s) as [[l1 s1]|] eqn:E; [|discriminate].
        destruct (whole_all _ _ _ _ _ Ht HI Hf E) as [A B]. eapply IH; [exact A|left; exact B| |exact H]. lia.
      - assert (Ht : 0 <= tadd start 1 <= TIME_INF).
        { inf. unfold tadd. destruct (set_time_cases (start + 1)) as [[E1 R]|[[R1 R2]|[R1 R2]]]; lia. }
        destruct (site_try_all _ _ _ _ _ _ _ _ _ _ _ (tadd start 1) (q :: l) s) as [[l1 s1]|] eqn:E; [|discriminate].
        destruct (whole_all _ _ _ _ _ Ht HI Hf E) as [A B]. eapply IH; [exact A|left; exact B| |exact H]. lia.
    Qed.
  End Inv.
End Run.

(** ** The whole decoding *)
Lemma site_decode_whole g est names cs nodes ch apt (site : Type) material_time deliver zone_time occupy moment (x0 : site) heads all fuel rest s
    (Inv : list (list nat) -> sstate site -> Prop) (at_first : nat -> Prop) :
    (forall x n t r, material_time x n t = Some r -> r <= TIME_INF) ->
    (forall x n t r x', deliver x n t = Some (r, x') -> r <= TIME_INF) ->
    (forall x n t e r, zone_time x n t e = Some r -> - TIME_INF <= r <= TIME_INF) ->
    contractors_ok cs -> estimator_ok est -> NoDup names -> chromosome_ok ch ->
    (forall n, 0 <= volume_of g n) -> 0 <= apt <= TIME_INF ->
    Forall2 (fun w n => nth_error nodes w = Some n) (ch_order ch) heads ->
    chains_of g heads = Some all -> NoDup (concat all) ->
    (forall n amounts ci k a b, gene nodes ch n amounts ci -> row_amount names amounts k a ->
       border_for names (ch_borders ch) ci k b -> a <= b) ->
    (forall n amounts ci k a m, gene nodes ch n amounts ci -> row_amount names amounts k a -> 0 < a ->
       spec_count (ch_spec ch n) (reqs_of g n) k m -> m <= a) ->
    (forall hd r l n q, all = (hd :: r) :: l -> sp_independent (ch_spec ch hd) = false -> In n (hd :: r) -> In q (parents g n) -> In q (hd :: r)) ->
    (forall n t e, hd_error heads = Some n -> moment x0 n t e <> Some false) ->
    (forall n, hd_error heads = Some n -> at_first n) ->
    (forall tl, Inv [] (SS [] (tl, x0) [0])) ->
    (forall t q chains s s' c team st fin new, Inv chains s -> (pw_pos q = 0%nat -> at_first (pw_node q)) ->
       called g est ch apt site material_time deliver zone_time occupy moment t q chains s s' c team st fin new -> Inv (chains ++ [c]) s') ->
    site_parallel_decode g est names cs nodes ch apt site material_time deliver zone_time occupy moment x0 fuel = SFinished rest s ->
    exists bcs chains, with_borders names ch 0 cs = Some bcs /\ pbase g est names cs nodes ch bcs all site chains rest s /\ Inv chains s.
Proof.
  intros Hmat Hdel Hzone Hcs Hest Hnm Hch Hvol Hapt Ho Hc Hnd Hrow Hspc Hf Hmo Haf Hi0 Hstep H.
  unfold site_parallel_decode in H. destruct (with_borders names ch 0 cs) as [bcs|] eqn:Hbcs; [|discriminate].
  destruct (decode_works g est names cs nodes ch 0 (ch_order ch)) as [works|] eqn:Ew; [|discriminate].
  destruct (decode_works_spec _ _ _ _ _ _ _ _ _ Ew) as (W1 & W2 & W3).
  assert (Hnodes : map pw_node works = heads).
  { clear -Ho W1. revert works W1. induction Ho as [|w n ws ns Hn _ IH]; intros works W1; inversion W1; subst; [reflexivity|]. simpl. f_equal; [congruence|auto]. }
  exists bcs. cut (exists chains, pbase g est names cs nodes ch bcs all site chains rest s /\ Inv chains s); [intros (chains & A & B); eauto|].
  eapply (whole_loop g est names cs nodes ch apt bcs (length (ch_order ch)) all site material_time deliver zone_time occupy moment x0 at_first
    Hmat Hdel Hzone Hcs Hest Hvol Hapt Hnm Hch Hbcs Hrow Hspc Hnd Inv Hstep); [| | |exact H].
  - exists []. split; [|apply Hi0]. destruct (jit_init_inv _ (pool_of_ok bcs (bordered_ok names ch cs Hcs Hch bcs Hbcs))) as [I1 I2].
    exists all, []. simpl. split.
    { constructor; simpl; [reflexivity|exact I1|exact I2|apply jit_init_times; inf; lia| | | | |]; try (intros; contradiction).
      - intros a t. cbn. lia.
      - intros l1 v w l2 E. destruct l1; discriminate. }
    split; [intros l1 hd r l2 E; destruct l1; discriminate|]. split; [intros n w []|].
    split; [rewrite Hnodes; exact Hc|]. split; [apply Permutation_refl|]. split; [exact W2|]. constructor; [inf; lia|constructor].
  - destruct works as [|q works]; [left; intros q []|]. right. exists q, works. split; [reflexivity|]. split; [|split; [|split; [reflexivity|split; [reflexivity|]]]].
    + destruct (length (ch_order ch)); [discriminate|]. cbn [map seq] in W3. injection W3 as _ W3.
      intros x Hx E. assert (Hp : In (pw_pos x) (map pw_pos works)) by (apply in_map; exact Hx). rewrite W3 in Hp. apply in_seq in Hp. lia.
    + subst heads. cbn [map chains_of] in Hc. destruct (chain_of g (pw_node q)) as [c|] eqn:Ec; [|discriminate].
      destruct (chains_of g (map pw_node works)) as [r0|]; [|discriminate]. injection Hc as <-.
      destruct (chain_head _ _ _ Ec) as [r1 ->]. intros Hi c n x Ec' Hn Hx. assert (c = pw_node q :: r1) by congruence. subst c.
      eapply Hf; eauto.
    + subst heads. split; [intros t e; apply Hmo; reflexivity|apply Haf; reflexivity].
  - inf. unfold tsub. destruct (set_time_cases (apt - 1)) as [[E1 R]|[[R1 R2]|[R1 R2]]]; lia.
Qed.

Lemma pbase_feasible g est names cs nodes ch bcs all (site : Type) chains rest (s : sstate site) :
    contractors_ok cs -> NoDup names -> chromosome_ok ch -> with_borders names ch 0 cs = Some bcs -> NoDup (concat all) ->
    (forall c e, In c all -> In e (g_edges g) -> In (e_from e) c -> In (e_to e) c -> comes_before c (e_from e) (e_to e)) ->
    pbase g est names cs nodes ch bcs all site chains rest s ->
    NoDup (map fst (ss_sched s)) /\
    (forall n, In n (concat all) <-> In n (map fst (ss_sched s)) \/ exists q c, In q rest /\ chain_of g (pw_node q) = Some c /\ In n c) /\
    (forall n w, In (n, w) (ss_sched s) -> 0 <= sw_start w <= sw_finish w /\ sw_finish w <= TIME_INF) /\
    (forall e hd r wv, In e (g_edges g) -> is_dependency (e_type e) = true -> In (hd :: r) all -> In (e_to e) (hd :: r) ->
       sp_independent (ch_spec ch hd) = false -> In (e_to e, wv) (ss_sched s) ->
       exists wu, In (e_from e, wu) (ss_sched s) /\ tadd (sw_finish wu) (e_lag e) <= sw_start wv) /\
    (forall c u v wu wv, In c all -> comes_before c u v -> In (u, wu) (ss_sched s) -> In (v, wv) (ss_sched s) ->
       sw_finish wu <= sw_start wv /\ sw_team wu = sw_team wv /\ sw_contractor wu = sw_contractor wv) /\
    (forall hd r n w, In (hd :: r) all -> In n (hd :: r) -> In (n, w) (ss_sched s) ->
       parallel_gene_team g names cs nodes ch hd (sw_team w) (sw_contractor w)) /\
    (forall ci c k a b t, nth_error cs ci = Some c -> In (k, a) (ct_workers c) -> border_for names (ch_borders ch) ci k b ->
       busy (schedule_bookings (ss_sched s)) (ct_id c, k) t <= b) /\
    (forall n w, In (n, w) (ss_sched s) -> chain_of g n = Some [n] -> inseparable_parent g n = None ->
      exists tm, row_team names cs nodes ch n tm /\
        sw_finish w = tadd (sw_start w) (match sp_time (ch_spec ch n) with Some t => t | None => est n tm end)).
Proof.
  intros Hcs Hnm Hch Hbcs Hnd Hin HF.
  destruct HF as (left & h & [K I1 I2 I3 L T TM P C] & HA & HS & Hleft & Hperm & _ & _).
  assert (Hperm' := concat_perm _ _ Hperm). rewrite concat_app in Hperm'.
  assert (Hnd2 := Permutation_NoDup (Permutation_sym Hperm') Hnd). assert (Hnd3 := nodup_app_l _ _ Hnd2).
  assert (Hin' : forall m w, In (m, w) (ss_sched s) -> In m (concat chains)).
  { intros m w Hm. apply in_sd_key in Hm. rewrite K in Hm. apply in_rev in Hm. exact Hm. }
  assert (Hsub : forall c, In c all -> forall m w, In m c -> In (m, w) (ss_sched s) -> In c chains).
  { intros c Hcin m w Hm Hw. apply (Permutation_in _ (Permutation_sym Hperm)) in Hcin. apply in_app_or in Hcin as [?|Hcin]; [assumption|].
    exfalso. eapply (nodup_app_disj _ _ m Hnd2); [eapply Hin'; eauto|]. apply in_concat. eauto. }
  split; [rewrite K; apply NoDup_rev; exact Hnd3|]. split; [|split; [exact T|]].
  { intros n. split.
    - intros Hn. apply (Permutation_in _ (Permutation_sym Hperm')) in Hn. apply in_app_or in Hn as [Hn|Hn].
      + left. rewrite K. apply in_rev in Hn. exact Hn.
      + right. apply in_concat in Hn as (c & Hcl & Hn).
        clear -Hleft Hcl Hn. revert left Hleft Hcl. induction rest as [|q rest IH]; intros left Hl Hcl; cbn [map chains_of] in Hl; [injection Hl as <-; destruct Hcl|].
        destruct (chain_of g (pw_node q)) as [c'|] eqn:E; [|discriminate]. destruct (chains_of g (map pw_node rest)) as [r|] eqn:Er; [|discriminate].
        injection Hl as <-. destruct Hcl as [->|Hcl]; [exists q, c; simpl; auto|]. destruct (IH r eq_refl Hcl) as (q' & c1 & A & B).
        exists q', c1. split; [right; exact A|exact B].
    - intros [Hn|(q & c & Hq & Ec & Hn)]; apply (Permutation_in _ Hperm'); apply in_or_app.
      + left. rewrite K in Hn. apply in_rev in Hn. exact Hn.
      + right. destruct (chains_of_in _ _ _ (pw_node q) Hleft) as (c' & E' & Hc'); [apply in_map; exact Hq|]. apply in_concat. exists c. split; [congruence|exact Hn]. }
  split; [|split; [|split; [|split; [|exact HS]]]].
  - intros e hd r wv He Hd Hcin Hto Hind Hv. assert (Hcc := Hsub _ Hcin _ _ Hto Hv).
    apply in_split in Hcc as (l1 & l2 & El).
    assert (Hpar : In (e_from e) (parents g (e_to e))).
    { unfold parents. apply in_map_iff. exists e. split; [reflexivity|]. apply filter_In. split; [|exact Hd].
      apply filter_In. split; [exact He|apply Nat.eqb_refl]. }
    assert (Hbef : comes_before (concat chains) (e_from e) (e_to e)).
    { rewrite El, concat_app. cbn [concat]. destruct (HA _ _ _ _ El Hind _ _ Hto Hpar) as [Hq|Hq].
      - apply comes_before_ext. eapply Hin; eauto.
      - apply in_split in Hq as (a & b & ->). apply in_split in Hto as (c & d & ->). exists a, (b ++ c), (d ++ concat l2).
        rewrite <- !app_assoc. cbn [app]. rewrite ?app_assoc_reverse. reflexivity. }
    assert (Hu : exists wu, In (e_from e, wu) (ss_sched s)).
    { assert (Hk : In (e_from e) (map fst (ss_sched s))).
      { rewrite K. apply in_rev. rewrite rev_involutive. destruct Hbef as (a & b & c & ->). apply in_or_app. right. left. reflexivity. }
      apply in_map_iff in Hk as ([m w] & E & Hk). simpl in E. subst m. eauto. }
    destruct Hu as [wu Hu]. exists wu. split; [exact Hu|]. eapply prec_from_order; eauto.
  - intros c u v wu wv Hcin Hb Hu Hv. eapply C; eauto. eapply Hsub; [exact Hcin| |exact Hu].
    destruct Hb as (a & b & d & ->). apply in_or_app. right. left. reflexivity.
  - intros hd r n w Hcin Hn Hw. eapply (TM hd r n w); eauto.
  - intros ci c k a b t Hci Hk Hb.
    assert (Hcap := bordered_capacity names ch cs Hcs Hch bcs ci c k b Hbcs Hci).
    assert (Hkk : capacity (pool_of bcs) (ct_id c, k) = Some b).
    { apply Hcap; [apply in_map_iff; exists (k, a); auto|]. apply (border_for_at _ _ _ _ _ Hnm) in Hb. exact Hb. }
    eapply Z.le_trans; [apply L|]. eapply busy_ge_zero_time; eauto.
Qed.

(** ** The finish of a chain whose works wait for nothing outside *)
Lemma place_exact g est team c sd0 : forall chain pre curr times fin sd',
  0 <= curr <= TIME_INF -> length times = length chain -> Forall (fun t => 0 <= t) times ->
  (forall m w, In (m, w) pre -> sw_finish w <= curr) ->
  (forall e w, In e (g_edges g) -> (In (e_from e, w) pre \/ In (e_from e) chain) -> In (e_to e) chain -> e_lag e <= 0) ->
  (forall m, In m chain -> min_start_time g sd0 m <= curr) ->
  jit_place g est team c curr chain (Some times) (pre ++ sd0) = Some (fin, sd') ->
  fin = Z.min TIME_INF (curr + zsum times).
Proof.
  induction chain as [|n chain IH]; intros pre curr times fin sd' Hcurr Hlen Ht Hpre Hlag Hm H.
  - cbn [jit_place] in H. injection H as <- _. destruct times; [|discriminate]. simpl. lia.
  - cbn [jit_place] in H. destruct (match inseparable_parent g n with Some _ => _ | None => true end); [|discriminate].
    destruct times as [|t times]; [discriminate|]. apply Forall_inv in Ht as Ht0. apply Forall_inv_tail in Ht as Ht1. simpl in Hlen.
    assert (M1 : min_start_time g (pre ++ sd0) n <= Z.max curr (min_start_time g sd0 n)).
    { apply min_start_app_le; [lia|]. intros e w He Hto Hin. split; [eapply Hpre; eauto|].
      apply (Hlag e w He); [left; exact Hin|left; symmetry; exact Hto]. }
    assert (M2 := Hm n (or_introl eq_refl)).
    assert (Es : tmax (tadd curr 0) (min_start_time g (pre ++ sd0) n) = curr).
    { rewrite tmax_spec. unfold tadd. rewrite set_time_in; [lia|inf; lia]. }
    rewrite Es in H. assert (Ef : tadd curr t = Z.min TIME_INF (curr + t)) by (apply tadd_min; lia).
    assert (Hz := zsum_nonneg times Ht1). inf.
    change ((n, SW curr (tadd curr t) team c) :: pre ++ sd0) with (((n, SW curr (tadd curr t) team c) :: pre) ++ sd0) in H.
    assert (Hlen' : length times = length chain) by congruence.
    assert (G := IH ((n, SW curr (tadd curr t) team c) :: pre) (tadd curr t) times fin sd').
    change (zsum (t :: times)) with (t + zsum times). rewrite G; [lia|lia|exact Hlen'|exact Ht1| | | |exact H].
    + intros m w [[= <- <-]|Hin]; [cbn [sw_finish]; lia|]. apply Hpre in Hin. lia.
    + intros e w He [[[= E _]|Hin]|Hin] Hto; (apply (Hlag e w He); [|right; exact Hto]).
      * right. left. exact E.
      * left. exact Hin.
      * right. right. exact Hin.
    + intros m Hin. specialize (Hm m (or_intror Hin)). lia.
Qed.

Section Land.
  Variables (g : graph) (est : nat -> list worker -> Z).
  Variable route : Z -> nat -> nat -> list nat.
  Variable overcome : nat -> Z.
  Variable holders : nat -> list SupplyModel.depot.
  Variable storage : nat -> nat -> Z.
  Variable platform : nat -> nat.
  Variable needs : nat -> SupplyModel.request.
  Variable cost : nat -> nat -> Z.
  Variable zones : nat -> list zreq.
  Variable start : nat -> option nat.
  Variables (ch : chromosome) (apt : Z).
  Hypothesis Hest : estimator_ok est.
  Hypothesis Hvol : forall n, 0 <= volume_of g n.

  Let mtime := land_material_time route overcome holders storage platform needs.
  Let deliv := land_deliver route overcome holders storage platform needs.
  Let ztime := land_zone_time cost zones.
  Let occup := land_occupy cost zones.
  Let mom := land_moment route overcome holders storage platform needs cost zones.
  Let hist := SupplyModel.history_of route overcome holders storage.
  Let calledl := called g est ch apt land mtime deliv ztime occup mom.

  Lemma called_times n c a : chain_of g n = Some c -> 0 <= a <= TIME_INF ->
    length (assigned_exec_times (map (volume_of g) c) a) = length c /\
    Forall (fun t => 0 <= t) (assigned_exec_times (map (volume_of g) c) a) /\ zsum (assigned_exec_times (map (volume_of g) c) a) = a.
  Proof.
    intros Ech Ha. destruct (chain_head _ _ _ Ech) as [r Er].
    destruct (assigned_times_spec (map (volume_of g) c) a) as (A1 & A2 & A3); [rewrite Er; discriminate| |exact Ha|].
    { apply Forall_forall. intros v Hv. apply in_map_iff in Hv as (m & <- & _). apply Hvol. }
    rewrite map_length in A1. auto.
  Qed.

  (** materials *)
  Definition supply_inv (y0 : SupplyModel.supply) (s : sstate land) : Prop :=
    exists new out, ss_sched s = rev new /\ hist y0 (map call_of out) = SupplyModel.Fine (out, fst (snd (ss_tl s))) /\ Forall2 (supplied platform needs) new out.
  Lemma supply_step y0 t q chains s s' c team st fin new : supply_inv y0 s -> calledl t q chains s s' c team st fin new -> supply_inv y0 s'.
  Proof.
    intros (old & out0 & E1 & E2 & E3) [C1 C2 C3 C4 C4b C5 C6 C7 C8 C9 C10 C11 C12].
    destruct s as [sd [tl x] times]. destruct s' as [sd' [tl' x'] times']. unfold supply_inv. cbn [ss_sched ss_tl fst snd] in *.
    unfold jsite_schedule in C6. rewrite C1 in C6. cbn [sp_time] in C6.
    destruct (jsite_place _ _ _ _ _ _ _ _ _ _ _) as [[[fin1 sd1] x1]|] eqn:Ep; [|discriminate].
    destruct (jit_update _ _ _ _) as [s1|] eqn:Eu; [|discriminate].
    destruct (occup _ _ _ _ _) as [x2|] eqn:Eo; [|discriminate]. injection C6 as -> -> ->.
    destruct (called_times _ _ _ C1 C5) as (_ & T2 & _).
    destruct (jplace_history g est route overcome holders storage platform needs cost zones start Hest _ _ _ (Some _) _ _ _ _ _ _ T2 C2 Ep) as (new' & out & A1 & A2 & A3).
    exists (old ++ new'), (out0 ++ out). split; [rewrite A1, E1, rev_app_distr; reflexivity|]. split; [|apply Forall2_app; assumption].
    rewrite map_app. eapply history_app; [exact E2|]. rewrite A2. f_equal. f_equal.
    unfold occup, land_occupy in Eo. destruct (update_zones _ _ _ _ _ _) as [[z ?]|]; [|discriminate]. injection Eo as <-. reflexivity.
  Qed.

  (** zones *)
  Section Zones.
    Hypothesis cost0 : forall s q, s <> q -> cost s q = 0.
    Hypothesis Hzones : forall n, NoDup (map fst (zones n)) /\ forall r, In r (zones n) -> start (fst r) <> None.
    Hypothesis Hind : forall n, zones n <> [] -> sp_independent (ch_spec ch n) = false.
    Hypothesis Hnoneeds : forall n c m, chain_of g n = Some c -> zones n <> [] -> In m c -> needs m = [].
    Hypothesis Hnolag : forall n c e, chain_of g n = Some c -> zones n <> [] -> In e (g_edges g) -> In (e_from e) c -> In (e_to e) c -> e_lag e <= 0.
    Hypothesis Hinner : forall n c e, chain_of g n = Some c -> zones n <> [] -> In e (g_edges g) -> In (e_to e) c -> e_to e <> n -> In (e_from e) c.

    Definition zone_inv (chains : list (list nat)) (s : sstate land) : Prop :=
      (forall m w, In (m, w) (ss_sched s) -> 2 * sw_finish w < TIME_INF) ->
      exists occ H, oinv zones start chains (ss_sched s) (snd (ss_tl s)) occ H.

    Lemma zone_step t q chains s s' c team st fin new : zone_inv chains s -> (pw_pos q = 0%nat -> zones (pw_node q) = []) ->
      calledl t q chains s s' c team st fin new -> zone_inv (chains ++ [c]) s'.
    Proof.
      intros HZ Hfirst [C1 C2 C3 C4 C4b C5 C6 C7 C8 C9 C10 C11 C12] Hfin.
      destruct s as [sd [tl x] times]. destruct s' as [sd' [tl' x'] times']. unfold zone_inv in HZ. cbn [ss_sched ss_tl fst snd] in *.
      set (n := pw_node q) in *.
      destruct HZ as (occ & H & [OP OW OH OI OK]). { intros m w Hin. apply (Hfin m w). rewrite C7. apply in_or_app. right. exact Hin. }
      destruct (chain_head g n c C1) as [r Er].
      assert (Hsdin : forall m w, In (m, w) sd -> In m (concat chains)).
      { intros m w Hin. apply in_sd_key in Hin. rewrite C11 in Hin. apply in_rev in Hin. exact Hin. }
      assert (Hold : forall hd r0 z q, In (hd :: r0) chains -> In (z, q) (zones hd) ->
        exists i lo hi, In (Oc i z q lo hi) occ /\
          forall m w, In m (hd :: r0) -> In (m, w) sd' -> lo <= sw_start w /\ sw_finish w <= hi).
      { intros hd r0 z q0 Hc Hz. destruct (OK hd r0 z q0 Hc Hz) as (i & lo & hi & Ho & Hw). exists i, lo, hi. split; [exact Ho|].
        intros m w Hm Hin. apply (Hw m w Hm). rewrite C7 in Hin. apply in_app_or in Hin as [Hin|Hin]; [|exact Hin].
        exfalso. apply (C12 m); [eapply in_concat_elem; eauto|]. rewrite <- C8. apply in_rev in Hin. apply (in_sd_key new m w Hin). }
      assert (Hlen' : (length sd <= length sd')%nat) by (rewrite C7, app_length; lia).
      unfold jsite_schedule in C6. rewrite C1 in C6. cbn [sp_time sp_independent] in C6.
      set (ex := assigned_exec_times (map (volume_of g) c) (pw_exec q)) in C6.
      destruct (jsite_place _ _ _ _ team _ st c (Some ex) sd x) as [[[fin1 sd1] x1]|] eqn:Ep; [|discriminate].
      destruct (jit_update _ _ _ _) as [s1|] eqn:Eu; [|discriminate].
      destruct (occup x1 (Z.of_nat (length sd1)) n st (tsub fin1 st)) as [x2|] eqn:Eo; [|discriminate].
      injection C6 as -> -> ->.
      assert (Hpl1 : SupplyProofs4.plat_ok (fst x1)) by (eapply jplace_plat; eauto).
      assert (Hz1 : snd x1 = snd x) by (eapply jplace_zones; eauto).
      destruct (zones n) as [|zr zs] eqn:Ezn.
      { assert (Ex : x' = x1).
        { unfold occup, land_occupy in Eo. rewrite Ezn in Eo. simpl in Eo. injection Eo as <-. destruct x1; reflexivity. }
        subst x'. exists occ, H. constructor; auto.
        - rewrite Hz1. exact OW.
        - intros o Ho. specialize (OI o Ho). lia.
        - intros hd r0 z q0 Hc Hz. apply in_app_or in Hc as [Hc|[Hc|[]]]; [eauto|].
          rewrite Er in Hc. injection Hc as <- <-. rewrite Ezn in Hz. destruct Hz. }
      assert (Hne : zones n <> []) by (rewrite Ezn; discriminate). rewrite <- Ezn in *. clear zr zs Ezn.
      assert (Est : st = t) by (apply C3; intros E; apply Hne, Hfirst, E). subst t.
      assert (Hi := Hind n Hne).
      destruct C4 as [C4|C4]; [congruence|]. destruct C4b as [C4b|C4b]; [congruence|].
      destruct (called_times _ _ _ C1 C5) as (T1 & T2 & T3). fold ex in T1, T2, T3.
      rewrite (jplace_nothing g est route overcome holders storage platform needs cost zones start) in Ep; [|intros m Hm; apply (Hnoneeds n c m C1 Hne Hm)|lia].
      destruct (jit_place g est team (pw_contractor q) st c (Some ex) sd) as [[finj sdj]|] eqn:Ej; [|discriminate].
      injection Ep as -> -> <-.
      assert (Hnew0 : new <> []) by (intros ->; rewrite Er in C8; discriminate).
      assert (Efin : fin = fin1).
      { destruct (jit_place_shape g est _ _ Hest _ _ (Some ex) _ _ _ T2 (proj2 C2) Ej) as (new' & M1 & M2 & M3 & _).
        assert (new' = new).
        { rewrite C7 in M1. apply app_inv_tail in M1. rewrite <- (rev_involutive new'), <- M1, rev_involutive. reflexivity. }
        subst new'. destruct (consecutive_last _ _ _ _ _ C9 Hnew0) as (m & v & Hin & E1).
        destruct (consecutive_in _ _ _ _ _ _ _ M3 Hin) as (_ & Q1 & _).
        destruct (consecutive_last _ _ _ _ _ M3 Hnew0) as (m' & v' & Hin' & E1').
        destruct (consecutive_in _ _ _ _ _ _ _ C9 Hin') as (_ & Q1' & _). lia. }
      subst fin1.
      assert (Hfh : 2 * fin < TIME_INF).
      { destruct (consecutive_last _ _ _ _ _ C9 Hnew0) as (m & v & Hin & E1). rewrite <- E1. apply (Hfin m v).
        rewrite C7. apply in_or_app. left. apply in_rev. rewrite rev_involutive. exact Hin. }
      assert (Hsf := consecutive_le _ _ _ _ _ C9).
      assert (F : fin = Z.min TIME_INF (st + zsum ex)).
      { apply (place_exact g est team (pw_contractor q) sd c [] st ex fin sd'); [exact C2|exact T1|exact T2| | | |exact Ej].
        - intros m w [].
        - intros e w He [[]|Hfr] Hto. eapply Hnolag; eauto.
        - intros m Hm. destruct (Nat.eq_dec m n) as [->|Hmn]; [exact C4b|].
          unfold min_start_time. destruct (max_default0_in (parent_times sd (edges_to g m))) as [->|E]; [lia|].
          apply parent_times_in in E as (e & w & He & Hw & _). exfalso.
          unfold edges_to in He. apply filter_In in He as [He Hto]. apply Nat.eqb_eq in Hto. subst m.
          apply (C12 (e_from e)); [eapply Hsdin, sd_get_in_weak; eauto|]. eapply Hinner; eauto. }
      rewrite T3 in F. assert (F' : fin = st + pw_exec q) by (inf; lia). clear F.
      destruct (Hzones n) as [Znd Zst].
      destruct (can_ok cost start (snd x) occ H st (pw_exec q) OW ltac:(lia) ltac:(lia) ltac:(lia) (zones n) Zst) as (b & Eb & Hzok).
      unfold mom, land_moment in C4. fold n in C4. destruct (SupplyModel.can_schedule _ _ _ _ _ _ _ _) as [[|]| |]; try discriminate.
      rewrite Eb in C4. injection C4 as ->. specialize (Hzok eq_refl).
      set (H' := Z.max H fin). set (exec' := fin - st).
      destruct (update_ok cost cost0 start (Z.of_nat (length sd')) st exec' H' ltac:(unfold exec'; lia) ltac:(unfold exec'; lia) ltac:(unfold exec'; lia) ltac:(unfold exec'; lia) ltac:(unfold H', exec'; lia)
                  (zones n) (snd x) occ) as (tl2 & ts & Eup & W').
      - eapply winv_mono; [|exact OW]. unfold H'. lia.
      - exact Znd.
      - intros zr Hr. split; [eapply zone_ok_shorter; [|apply Hzok; exact Hr]; unfold exec'; lia|]. split; [apply Zst, Hr|].
        intros o Ho _. specialize (OI o Ho). assert (length sd < length sd')%nat; [|lia].
        rewrite C7, app_length, rev_length. destruct new; [congruence|]. simpl. lia.
      - unfold occup, land_occupy in Eo. rewrite tsub_exact in Eo by lia.
        fold exec' in Eo. rewrite Eup in Eo. injection Eo as <-.
        exists (occ ++ map (fun zr => Oc (Z.of_nat (length sd')) (fst zr) (snd zr) st (st + exec')) (zones n)), H'.
        constructor; cbn [fst snd].
        + exact Hpl1.
        + exact W'.
        + unfold H'. lia.
        + intros o Ho. apply in_app_or in Ho as [Ho|Ho]; [specialize (OI o Ho); lia|]. apply in_map_iff in Ho as (zr & <- & _). cbn. lia.
        + intros hd r0 z q0 Hc Hz. apply in_app_or in Hc as [Hc|[Hc|[]]].
          * destruct (Hold hd r0 z q0 Hc Hz) as (i & lo & hi & Ho & Hw). exists i, lo, hi. split; [apply in_or_app; left; exact Ho|exact Hw].
          * rewrite Er in Hc. injection Hc as <- <-. exists (Z.of_nat (length sd')), st, (st + exec'). split.
            { apply in_or_app. right. apply in_map_iff. exists (z, q0). split; [reflexivity|exact Hz]. }
            intros m v Hm Hin. rewrite C7 in Hin. apply in_app_or in Hin as [Hin|Hin].
            { apply in_rev in Hin. destruct (consecutive_in _ _ _ _ _ _ _ C9 Hin) as (Q1 & Q2 & _). unfold exec'. lia. }
            exfalso. apply (C12 m); [eapply Hsdin; eauto|]. rewrite Er. exact Hm.
    Qed.
  End Zones.
End Land.
