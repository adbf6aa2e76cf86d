(** Lemmas about the serial scheme on a site. *)
From Coq Require Import ZArith List Bool Lia Arith.
From Coq Require Import ZifyBool ZifyNat.
From Verif Require Import TimeModel MomentumModel JITModel MomentumSpec MomentumHistory MomentumTeamProofs
  GraphModel ScheduleModel ScheduleSpec ContractorProofs ContractorTheorems TeamProofs ScheduleProofs
  SchedulePoolProofs ScheduleInv ScheduleSafe ZoneModel SiteModel SiteProofs SiteZoneProofs SiteSupplyProofs
  SgsModel SgsSpec SgsSerial SgsSiteModel.
From Verif Require SupplyModel SupplySpec.
Import ListNotations.
Local Open Scope Z_scope.

Section Site.
  Variables (g : graph) (est : nat -> list worker -> Z) (site : Type).
  Variable material_time : site -> nat -> Z -> option Z.
  Variable deliver : site -> nat -> Z -> option (Z * site).
  Variable zone_time : site -> nat -> Z -> Z -> option Z.
  Variable occupy : site -> Z -> nat -> Z -> Z -> option site.
  Hypothesis Hmat : forall x n t r, material_time x n t = Some r -> r <= TIME_INF.
  Hypothesis Hdel : forall x n t r x', deliver x n t = Some (r, x') -> r <= TIME_INF.
  Hypothesis Hzone : forall x n t e r, zone_time x n t e = Some r -> r <= TIME_INF.
  Hypothesis Hest : estimator_ok est.
  Let find := site_find g est site material_time zone_time.
  Let schedule := site_schedule g est site material_time deliver zone_time occupy.

  (** The start that is found is not later than infinity. *)
  Lemma site_find_le sd s x n team ind apt st ft times : 0 <= apt <= TIME_INF -> times_le s ->
    find sd (s, x) n team ind None apt = Some (st, ft, times) ->
    parent_bound g sd None apt n <= st <= TIME_INF.
  Proof.
    intros Hapt Hs H. unfold find, site_find in H.
    destruct (chain_of g n) as [chain|]; [|discriminate].
    destruct (parent_bound_range g sd None apt n Hapt I) as [Hb _].
    destruct (chain_exec _ _ _ _ _ _ _) as [exec tms] eqn:E.
    destruct team as [|w team].
    { destruct (material_time x n _) as [mt|] eqn:Em; [|discriminate]. destruct (zone_time x n _ _) as [zt|] eqn:Ez; [|discriminate].
      apply Hmat in Em. apply Hzone in Ez. injection H as <- <- _. rewrite !tmax_spec. lia. }
    destruct (repeat_until _ _ _) as [?|[r|]] eqn:Ef; try discriminate.
    destruct (validate _ _ _ _); [|discriminate]. injection H as <- <- <-.
    split; [eapply (agree_ge site material_time deliver zone_time Hmat Hdel Hzone); [| |reflexivity|exact Ef]; [lia|]; intros cur r0; apply find_min_start_min|].
    match type of Ef with repeat_until ?b ?f ?a = _ =>
      assert (H := repeat_until_inv (fun c => c <= TIME_INF) (fun o => forall st, o = Some st -> st <= TIME_INF) f) end.
    match type of H with ?A -> _ => assert (Hstep : A) end.
    { intros cur Hc. unfold agree. destruct (find_min_start_time _ _ _ _ _ _ _) as [c0|] eqn:E0; [|discriminate].
      apply find_min_start_le in E0; [|exact Hs|exact Hc].
      destruct (material_time x n c0) as [mt|] eqn:E1; [|discriminate]. apply Hmat in E1.
      destruct (tlt c0 mt); [exact E1|].
      destruct (zone_time x n c0 exec) as [zt|] eqn:E2; [|discriminate]. apply Hzone in E2.
      destruct (tlt c0 zt); [exact E2|]. intros st0 [= <-]. exact E0. }
    assert (Hpb : parent_bound g sd None apt n <= TIME_INF) by lia.
    specialize (H Hstep search_bound (parent_bound g sd None apt n) Hpb). rewrite Ef in H. apply H. reflexivity.
  Qed.

  Lemma site_place_le team c : forall chain times curr sd x fin sd' x', curr <= TIME_INF ->
    site_place site deliver team c curr chain times sd x = Some (fin, sd', x') -> fin <= TIME_INF.
  Proof.
    induction chain as [|n chain IH]; intros [|[lag t] times] curr sd x fin sd' x' Hc; cbn [site_place];
      try (intros [= <- _ _]; exact Hc).
    destruct (deliver _ _ _) as [[a x1]|]; [|discriminate]. intros H. eapply IH; [|exact H]. apply set_time_range.
  Qed.

  Lemma site_schedule_le sd s x n team c sp st apt sd' s' x' : times_le s -> st <= TIME_INF -> 0 <= apt <= TIME_INF ->
    schedule sd (s, x) n team c sp (Some st) apt = Some (sd', (s', x')) -> times_le s'.
  Proof.
    intros Hs Hst Hapt. unfold schedule, site_schedule. destruct (chain_of g n) as [chain|] eqn:Ec; [|discriminate].
    destruct (site_find _ _ _ _ _ _ _ _ _ _ _ _) as [[[st0 ft0] times0]|] eqn:Ef; [|discriminate].
    assert (Hst0 : st0 <= TIME_INF).
    { unfold site_find in Ef. rewrite Ec in Ef. destruct (chain_exec _ _ _ _ _ _ _) as [exec tms].
      destruct (parent_bound_range g sd (Some st) apt n Hapt Hst) as [Hb _].
      destruct team.
      - destruct (material_time x n _) as [mt|] eqn:Em; [|discriminate]. destruct (zone_time x n _ _) as [zt|] eqn:Ez; [|discriminate].
        apply Hmat in Em. apply Hzone in Ez. injection Ef as <- _ _. rewrite !tmax_spec. lia.
      - destruct (validate _ _ _ _); [|discriminate]. injection Ef as <- _ _. exact Hst. }
    destruct (site_place _ _ _ _ _ _ _ _ _) as [[[fin sd1] x1]|] eqn:Ep; [|discriminate]. apply site_place_le in Ep; [|exact Hst0].
    destruct (update_timeline _ _ _ _) as [s1|] eqn:Eu; [|discriminate].
    destruct (occupy _ _ _ _ _) as [x2|]; [|discriminate]. intros [= _ <- _] y Hy.
    apply (update_timeline_times _ _ _ _ _ _ Eu) in Hy as [->|[->|Hy]]; [apply set_time_range|exact Ep|apply Hs; exact Hy].
  Qed.

  (** ** The loop *)
  Section Loop.
    Variables (names : list nat) (cs : list contractor) (nodes : list nat) (ch : chromosome) (apt : Z) (bcs : list contractor).
    Variable changes : list (list nat).
    Hypothesis Hcs : contractors_ok cs.
    Hypothesis Hreqs : forall n, reqs_ok (reqs_of g n).
    Hypothesis Hvol : forall n, 0 <= volume_of g n.
    Hypothesis Hapt : 0 <= apt <= TIME_INF.
    Hypothesis Hnames : NoDup names.
    Hypothesis Hch : chromosome_ok ch.
    Hypothesis Hbcs : with_borders names ch 0 cs = Some bcs.
    Let staff (n : nat) (w : swork) : Prop := gene_team g names cs nodes ch n (sw_team w) (sw_contractor w).
    Let inv chains sd s h := tinv g (pool_of bcs) staff (ch_spec ch) chains sd s h /\ times_le s.
    Let step := site_serial_step g est names cs nodes ch apt site material_time deliver zone_time occupy changes.
    Let loop := site_serial_loop g est names cs nodes ch apt site material_time deliver zone_time occupy changes.

    (** What one step does: the team of the chromosome and the call. *)
    Lemma serial_site_call first w n sd s x sd' s' x' : times_le s -> (first = true -> sd = []) ->
      nth_error nodes w = Some n ->
      step first w sd (s, x) = Some (sd', (s', x')) ->
      exists t cid st, team_ok t /\ parent_bound g sd None apt n <= st <= TIME_INF /\
        gene_team g names cs nodes ch n (to_workers t) cid /\
        schedule sd (s, x) n (to_workers t) cid (ch_spec ch n) (Some st) apt = Some (sd', (s', x')).
    Proof.
      intros Hle Hf Hn H. unfold step, site_serial_step in H. rewrite Hn in H.
      destruct (nth_error (ch_rows ch) w) as [[amounts ci]|] eqn:Er; [|discriminate].
      destruct (nth_error cs ci) as [ct|] eqn:Ec; [|discriminate].
      destruct (serial_team names ct amounts (reqs_of g n)) as [t0|] eqn:Et; [|discriminate].
      destruct (apply_spec _ _ t0) as [team|] eqn:Ea; [|discriminate].
      destruct (site_find _ _ _ _ _ _ _ _ _ _ _ _) as [[[st ft] times]|] eqn:Ef; [|discriminate].
      assert (Hg := serial_gene_team g names cs nodes ch Hch w n amounts ci ct t0 team Hn Er Ec Et Ea).
      assert (HF := gene_team_shape g names cs nodes ch Hch n team (ct_id ct) (Hreqs n) Hg).
      destruct (team_shape _ _ _ (proj1 (Hreqs n)) HF) as [Etm Htok].
      set (t := team_of_contractor (ct_id ct) (combine (map r_kind (reqs_of g n)) (map w_count team))) in *.
      assert (Hst : parent_bound g sd None apt n <= st <= TIME_INF) by (eapply site_find_le; eauto).
      assert (Hst2 : parent_bound g sd None apt n <= (if first then apt else st) <= TIME_INF).
      { destruct first; [|exact Hst]. rewrite (Hf eq_refl). unfold parent_bound. rewrite min_start_nil, tmax_spec. lia. }
      destruct (site_schedule _ _ _ _ _ _ _ _ _ _ _ _ _ _ _) as [[sd1 [s1 x1]]|] eqn:Em; [|discriminate].
      assert (Ex : sd1 = sd' /\ s1 = s' /\ x1 = x').
      { unfold change_zones in H. destruct (nth_error changes w) as [row|]; [|discriminate].
        destruct (zone_change_time row None); [|discriminate]. injection H as <- <- <-. auto. }
      destruct Ex as (-> & -> & ->).
      exists t, (ct_id ct), (if first then apt else st). rewrite <- Etm. auto.
    Qed.

    Lemma serial_site_step_inv first w n chains sd s x h sd' s' x' c :
      inv chains sd s h -> (first = true -> sd = []) ->
      Z.of_nat (length chains) < TIME_INF ->
      nth_error nodes w = Some n ->
      chain_of g n = Some c -> NoDup (concat (chains ++ [c])) ->
      (forall e, In e (g_edges g) -> In (e_from e) (concat (chains ++ [c])) -> In (e_to e) (concat (chains ++ [c])) ->
         comes_before (concat (chains ++ [c])) (e_from e) (e_to e)) ->
      step first w sd (s, x) = Some (sd', (s', x')) ->
      exists h', inv (chains ++ [c]) sd' s' h'.
    Proof.
      intros [HI Hle] Hf Hlen Hn Hc Hnd Htopo H.
      destruct (serial_site_call _ _ _ _ _ _ _ _ _ Hle Hf Hn H) as (t & cid & st & Ht & Hst & Hg & Em).
      assert (Hle' : times_le s') by (eapply site_schedule_le; [exact Hle| |exact Hapt|exact Em]; apply Hst).
      assert (HX := i_idx _ _ _ _ _ _ _ _ HI). assert (HM := i_minv _ _ _ _ _ _ _ _ HI).
      destruct Hch as (_ & _ & Hsp).
      destruct (site_schedule_spec g est site material_time deliver zone_time occupy Hmat Hdel Hzone Hest
        (pool_of bcs) h sd s x n t cid (ch_spec ch n) st apt sd' s' x' (proj1 (Hsp n)) Hvol HM ltac:(lia) Hapt Ht Hst Em)
        as (chain & new & st0 & fin & A1 & A2 & A3 & A4 & _ & A5 & A6 & A7 & A8 & A9 & A10).
      rewrite Hc in A1. injection A1 as <-.
      assert (Hst0 : 0 <= st0). { destruct (parent_bound_range g sd None apt n Hapt I). lia. }
      exists (booked (Rq fin (fin - st0) t) ++ h). split; [|exact Hle'].
      eapply placed_inv; eauto. intros v V1 V2. unfold staff. rewrite V1, V2. exact Hg.
    Qed.

    Lemma serial_site_loop_inv : forall order heads first chains rest sd s x h sd' s' x',
      inv chains sd s h -> (first = true -> sd = []) ->
      Forall2 (fun w n => nth_error nodes w = Some n) order heads -> chains_of g heads = Some rest ->
      Z.of_nat (length (chains ++ rest)) < TIME_INF ->
      NoDup (concat (chains ++ rest)) ->
      (forall e, In e (g_edges g) -> In (e_from e) (concat (chains ++ rest)) -> In (e_to e) (concat (chains ++ rest)) ->
         comes_before (concat (chains ++ rest)) (e_from e) (e_to e)) ->
      loop first order sd (s, x) = Some (sd', (s', x')) ->
      exists h', inv (chains ++ rest) sd' s' h'.
    Proof.
      induction order as [|w order IH]; intros heads first chains rest sd s x h sd' s' x' HI Hf Ho Hc Hlen Hnd Htopo H.
      - inversion Ho; subst. simpl in Hc. injection Hc as <-. rewrite app_nil_r. simpl in H. injection H as <- <- <-. eauto.
      - inversion Ho as [|? n ? heads' Hn Ho']; subst. cbn [chains_of] in Hc. destruct (chain_of g n) as [c|] eqn:Ec; [|discriminate].
        destruct (chains_of g heads') as [rest'|] eqn:Er; [|discriminate]. injection Hc as <-.
        unfold loop in H. cbn [site_serial_loop] in H. fold loop in H. fold step in H.
        destruct (step _ _ _ _) as [[sd1 [s1 x1]]|] eqn:Es; [|discriminate].
        assert (Eapp : chains ++ c :: rest' = (chains ++ [c]) ++ rest') by (rewrite <- app_assoc; reflexivity).
        rewrite Eapp in *. rewrite concat_app in Hnd, Htopo.
        assert (Hs : exists h1, inv (chains ++ [c]) sd1 s1 h1);
          [eapply serial_site_step_inv; [exact HI|exact Hf| |exact Hn|exact Ec| | |exact Es]|destruct Hs as [h1 HI1]].
        { rewrite !app_length in Hlen. simpl in Hlen. lia. }
        { eapply nodup_app_l. exact Hnd. }
        { intros e He H1 H2. eapply comes_before_prefix; [exact Hnd| |exact H2].
          apply Htopo; [exact He|apply in_or_app; left; exact H1|apply in_or_app; left; exact H2]. }
        apply (IH heads' false (chains ++ [c]) rest' sd1 s1 x1 h1 sd' s' x'); auto.
        + discriminate.
        + rewrite concat_app. exact Hnd.
        + rewrite concat_app. exact Htopo.
    Qed.
  End Loop.
End Site.

(** ** The deliveries *)
Section Land.
  Variables (g : graph) (est : nat -> list worker -> Z).
  Variable route : Z -> nat -> nat -> list nat.
  Variable overcome : nat -> Z.
  Variable holders : nat -> list SupplyModel.depot.
  Variable storage : nat -> nat -> Z.
  Variable platform : nat -> nat.
  Variable needs : nat -> SupplyModel.request.
  Variable cost : nat -> nat -> Z.
  Variable zones : nat -> list zreq.
  Hypothesis Hest : estimator_ok est.
  Let mtime := land_material_time route overcome holders storage platform needs.
  Let deliv := land_deliver route overcome holders storage platform needs.
  Let ztime := land_zone_time cost zones.
  Let occup := land_occupy cost zones.
  Let hist := SupplyModel.history_of route overcome holders storage.
  Let lmat := land_mat route overcome holders storage platform needs.
  Let ldel := land_del route overcome holders storage platform needs.
  Let lzone := land_zone cost zones.

  Lemma call_history sd s x n team c sp st apt sd' s' x' : spec_ok sp -> (forall m, 0 <= volume_of g m) -> 0 <= apt <= TIME_INF ->
    parent_bound g sd None apt n <= st <= TIME_INF ->
    site_schedule g est land mtime deliv ztime occup sd (s, x) n team c sp (Some st) apt = Some (sd', (s', x')) ->
    exists new out, sd' = rev new ++ sd /\ hist (fst x) (map call_of out) = SupplyModel.Fine (out, fst x') /\
      Forall2 (supplied platform needs) new out.
  Proof.
    intros [_ Hspt] Hvol Hapt Hst Em.
    unfold site_schedule in Em. destruct (chain_of g n) as [chain|] eqn:Ech; [|discriminate].
    destruct (site_find _ _ _ _ _ _ _ _ _ _ _ _) as [[[st0 ft0] times0]|] eqn:Ef; [|discriminate].
    destruct (parent_bound_range g sd None apt n Hapt I) as [Hb1 Hb2].
    assert (Hpb : parent_bound g sd (Some st) apt n = st).
    { unfold parent_bound in *. rewrite !tmax_spec in *. lia. }
    unfold site_find in Ef. rewrite Ech, Hpb in Ef.
    destruct (chain_exec g est (parent_bound g sd (Some st) apt) st team 0 chain) as [exec tms] eqn:Ec.
    assert (Hst0 : st <= st0 <= TIME_INF /\ times0 = tms).
    { destruct team as [|w0 tw].
      - destruct (mtime x n _) as [mt|] eqn:E1; [|discriminate]. destruct (ztime x n _ _) as [zt|] eqn:E2; [|discriminate].
        apply lmat in E1. apply lzone in E2. injection Ef as <- _ <-. rewrite !tmax_spec. split; [lia|reflexivity].
      - destruct (validate _ _ _ _); [injection Ef as <- _ <-; auto|discriminate]. split; [lia|auto]. }
    destruct Hst0 as (Hst0 & ->).
    destruct (chain_exec_shape g est team Hest (parent_bound g sd (Some st) apt) st chain 0 exec tms ltac:(inf; lia) Ec) as (L1 & L2 & L3 & _).
    set (times := match sp_time sp with Some a => _ | None => tms end) in Em.
    assert (Hne : chain <> []) by (destruct (chain_head g n chain Ech) as [r ->]; discriminate).
    assert (Htimes : length times = length chain /\ Forall (fun x => 0 <= fst x /\ 0 <= snd x) times).
    { unfold times. destruct (sp_time sp) as [a|]; [|auto].
      destruct (assigned_times_spec (map (volume_of g) chain) a) as (A1 & A2 & _); [destruct chain; [congruence|discriminate]| |exact Hspt|].
      { apply Forall_forall. intros v Hv. apply in_map_iff in Hv as (m & <- & _). apply Hvol. }
      rewrite map_length in *. split; [exact A1|]. apply Forall_forall. intros y Hy. apply in_map_iff in Hy as (z & <- & Hz).
      rewrite Forall_forall in A2. simpl. split; [lia|apply A2; exact Hz]. }
    destruct Htimes as [T1 T2].
    destruct (site_place _ _ team c st0 chain times sd x) as [[[fin sd1] x1]|] eqn:Ep; [|discriminate].
    destruct (update_timeline _ _ _ _) as [s1|] eqn:Eu; [|discriminate].
    destruct (occup _ _ _ _ _) as [x2|] eqn:Eo; [|discriminate]. injection Em as <- <- <-.
    assert (Hc0 : 0 <= st0 <= TIME_INF) by lia.
    destruct (place_history route overcome holders storage platform needs cost zones _ _ _ _ _ _ _ _ _ _ T1 T2 Hc0 Ep) as (new & out & A1 & A2 & A3).
    exists new, out. split; [exact A1|]. split; [|exact A3]. unfold hist. rewrite A2. f_equal. f_equal.
    unfold occup, land_occupy in Eo. destruct (update_zones _ _ _ _ _ _) as [[z ?]|]; [|discriminate]. injection Eo as <-. reflexivity.
  Qed.

  Variables (names : list nat) (cs : list contractor) (nodes : list nat) (ch : chromosome) (apt : Z).
  Variable changes : list (list nat).
  Hypothesis Hreqs : forall n, reqs_ok (reqs_of g n).
  Hypothesis Hvol : forall n, 0 <= volume_of g n.
  Hypothesis Hapt : 0 <= apt <= TIME_INF.
  Hypothesis Hch : chromosome_ok ch.
  Let loop := site_serial_loop g est names cs nodes ch apt land mtime deliv ztime occup changes.

  Lemma serial_site_history : forall order heads first sd s x sd' s' x', times_le s -> (first = true -> sd = []) ->
    Forall2 (fun w n => nth_error nodes w = Some n) order heads ->
    loop first order sd (s, x) = Some (sd', (s', x')) ->
    exists new out, sd' = rev new ++ sd /\ hist (fst x) (map call_of out) = SupplyModel.Fine (out, fst x') /\
      Forall2 (supplied platform needs) new out.
  Proof.
    induction order as [|w order IH]; intros heads first sd s x sd' s' x' Hle Hf Ho Hl; unfold loop in Hl; cbn [site_serial_loop] in Hl.
    - injection Hl as <- <- <-. exists [], []. repeat split; constructor.
    - inversion Ho as [|? n ? heads' Hn Ho']; subst.
      destruct (site_serial_step _ _ _ _ _ _ _ _ _ _ _ _ _ _ _ _ _) as [[sd1 [s1 x1]]|] eqn:Es; [|discriminate].
      destruct (serial_site_call g est land mtime deliv ztime occup lmat ldel lzone names cs nodes ch apt cs changes Hreqs Hvol Hapt Hch
        first w n sd s x sd1 s1 x1 Hle Hf Hn Es) as (t & cid & st & _ & Hst & _ & Em).
      destruct Hch as (_ & _ & Hsp).
      assert (Hle1 : times_le s1) by (eapply (site_schedule_le g est land mtime deliv ztime occup lmat ldel lzone); [exact Hle| |exact Hapt|exact Em]; apply Hst).
      destruct (call_history _ _ _ _ _ _ _ _ _ _ _ _ (proj1 (Hsp n)) Hvol Hapt Hst Em) as (new1 & out1 & A1 & A2 & A3).
      destruct (IH heads' false _ _ _ _ _ _ Hle1 ltac:(discriminate) Ho' Hl) as (new2 & out2 & B1 & B2 & B3).
      exists (new1 ++ new2), (out1 ++ out2). split; [rewrite B1, A1, rev_app_distr, app_assoc; reflexivity|].
      split; [|apply Forall2_app; assumption]. rewrite map_app. eapply history_app; eauto.
  Qed.
End Land.
