(** The materials of the works that the list scheduler places: the deliveries of a run are a
    history of the supply timeline. *)
From Coq Require Import ZArith List Bool Lia Arith.
From Coq Require Import ZifyBool ZifyNat.
From Verif Require Import TimeModel MomentumModel MomentumSpec MomentumHistory MomentumTeamProofs
  GraphModel ScheduleModel ScheduleSpec TeamProofs ContractorTheorems ScheduleProofs ScheduleInv ZoneModel SiteModel SiteProofs SiteZoneProofs.
From Verif Require SupplyModel SupplySpec.
Import ListNotations.
Local Open Scope Z_scope.

Lemma history_app route overcome holders storage : forall a s o1 s1 b o2 s2,
  SupplyModel.history_of route overcome holders storage s a = SupplyModel.Fine (o1, s1) ->
  SupplyModel.history_of route overcome holders storage s1 b = SupplyModel.Fine (o2, s2) ->
  SupplyModel.history_of route overcome holders storage s (a ++ b) = SupplyModel.Fine (o1 ++ o2, s2).
Proof.
  induction a as [|c a IH]; intros s o1 s1 b o2 s2 H1 H2; cbn [SupplyModel.history_of app] in *.
  - injection H1 as <- <-. exact H2.
  - destruct (SupplyModel.deliver _ _ _ _ _ _ _ _) as [[[d t] s']| |]; try discriminate; [|eapply IH; eauto].
    destruct (SupplyModel.history_of _ _ _ _ s' a) as [[o s3]| |] eqn:E; try discriminate. cbn [SupplyModel.bind fst snd] in H1. injection H1 as <- <-.
    rewrite (IH _ _ _ _ _ _ E H2). reflexivity.
Qed.

Section Land.
  Variables (g : graph) (est : nat -> list worker -> Z).
  Variable route : Z -> nat -> nat -> list nat.
  Variable overcome : nat -> Z.
  Variable holders : nat -> list SupplyModel.depot.
  Variable storage : nat -> nat -> Z.
  Variable platform : nat -> nat.
  Variable needs : nat -> SupplyModel.request.
  Variable cost : nat -> nat -> Z.
  Variable zones : nat -> list zreq.
  Hypothesis Hest : estimator_ok est.

  Let mtime := land_material_time route overcome holders storage platform needs.
  Let deliv := land_deliver route overcome holders storage platform needs.
  Let ztime := land_zone_time cost zones.
  Let occup := land_occupy cost zones.
  Let hist := SupplyModel.history_of route overcome holders storage.
  Let lmat := land_mat route overcome holders storage platform needs.
  Let ldel := land_del route overcome holders storage platform needs.
  Let lzone := land_zone cost zones.

  (** The work and the answer to the order of its materials. *)
  Definition supplied (x : nat * swork) (e : SupplySpec.entry) : Prop :=
    match e with
    | (c, _, t) => SupplyModel.c_platform c = platform (fst x) /\ SupplyModel.c_needs c = needs (fst x) /\
        0 <= SupplyModel.c_deadline c /\ sw_start (snd x) = Z.max (SupplyModel.c_deadline c) (set_time t)
    end.
  Definition call_of (e : SupplySpec.entry) : SupplyModel.call := fst (fst e).

  Lemma place_history team c : forall chain times curr sd x fin sd' x',
    length times = length chain -> Forall (fun y => 0 <= fst y /\ 0 <= snd y) times -> 0 <= curr <= TIME_INF ->
    site_place land deliv team c curr chain times sd x = Some (fin, sd', x') ->
    exists new out, sd' = rev new ++ sd /\ hist (fst x) (map call_of out) = SupplyModel.Fine (out, fst x') /\ Forall2 supplied new out.
  Proof.
    induction chain as [|n chain IH]; intros times curr sd x fin sd' x' Hl Ht Hc H.
    - destruct times; [|discriminate]. simpl in H. injection H as _ <- <-. exists [], []. repeat split; constructor.
    - destruct times as [|[lag t] times]; [discriminate|]. cbn [site_place] in H.
      inversion Ht as [|? ? [H1 H2] Ht']; subst. cbn [fst snd] in H1, H2.
      destruct (deliv x n (tadd curr lag)) as [[a x1]|] eqn:Ed; [|discriminate].
      assert (Ha := ldel _ _ _ _ _ Ed).
      assert (R1 : tadd curr lag <= TIME_INF) by apply set_time_range. assert (G1 := tadd_ge curr lag H1 (proj2 Hc)).
      set (start := tmax (tadd curr lag) a) in *.
      assert (Hs : tadd curr lag <= start <= TIME_INF) by (unfold start; rewrite tmax_spec; lia).
      assert (G2 := tadd_ge start t H2 ltac:(lia)). assert (R2 : tadd start t <= TIME_INF) by apply set_time_range.
      destruct (IH times (tadd start t) _ _ fin sd' x' ltac:(simpl in Hl; lia) Ht' ltac:(lia) H) as (new & out & A1 & A2 & A3).
      unfold deliv, land_deliver in Ed. destruct (SupplyModel.deliver _ _ _ _ _ _ _ _) as [[[d r] s1]| |] eqn:E; try discriminate.
      injection Ed as <- <-. cbn [fst snd] in *.
      exists ((n, SW start (tadd start t) team c) :: new), ((SupplyModel.Call (platform n) (tadd curr lag) (needs n), d, r) :: out).
      split; [rewrite A1; simpl; rewrite <- app_assoc; reflexivity|]. split.
      + unfold hist in *. cbn [map call_of fst SupplyModel.history_of SupplyModel.c_platform SupplyModel.c_deadline SupplyModel.c_needs]. rewrite E, A2. reflexivity.
      + constructor; [|exact A3]. cbn. repeat split; [lia|]. unfold start. rewrite tmax_spec. reflexivity.
  Qed.

  Section Run.
    Variable optimize : nat -> nat -> sched -> mstate * land -> list border -> option (list bool) -> list Z -> option (list Z).
    Variables (cs : list contractor) (spec : nat -> work_spec) (apt : Z).
    Hypothesis Hcs : contractors_ok cs.
    Hypothesis Hopt : forall n c sd s, optimizer_ok (optimize n c sd s).
    Hypothesis Hreqs : forall n, reqs_ok (reqs_of g n).
    Hypothesis Hvol : forall n, 0 <= volume_of g n.
    Hypothesis Hspec : forall n, spec_ok (spec n).
    Hypothesis Hapt : 0 <= apt <= TIME_INF.
    Let sfind := site_times g est land mtime ztime.
    Let sched1 := site_schedule g est land mtime deliv ztime occup.
    Let step := build_step (mstate * land) sfind sched1 (reqs_of g) optimize cs spec.
    Let loop := build_loop (mstate * land) sfind sched1 (reqs_of g) optimize cs spec.

    Lemma step_history is_first is_last n sd s x sd' s' x' : (is_first = true -> sd = []) ->
      step is_first is_last apt n sd (s, x) = Done (sd', (s', x')) ->
      exists new out, sd' = rev new ++ sd /\ hist (fst x) (map call_of out) = SupplyModel.Fine (out, fst x') /\ Forall2 supplied new out.
    Proof.
      intros Hfirst Hs.
      destruct (site_step_call g est land mtime deliv ztime occup lmat ldel lzone Hest optimize cs spec apt Hcs Hopt Hreqs Hvol Hspec Hapt
                  is_first is_last n sd s x sd' s' x' Hfirst Hs) as (ct & t & st & Hct & Ht & Hst & _ & Em & _).
      unfold site_schedule in Em. destruct (chain_of g n) as [chain|] eqn:Ech; [|discriminate].
      destruct (site_find _ _ _ _ _ _ _ _ _ _ _ _) as [[[st0 ft0] times0]|] eqn:Ef; [|discriminate].
      destruct (parent_bound_range g sd None apt n Hapt I) as [Hb1 Hb2].
      assert (Hpb : parent_bound g sd (Some st) apt n = st).
      { unfold parent_bound in *. rewrite !tmax_spec in *. lia. }
      unfold site_find in Ef. rewrite Ech, Hpb in Ef.
      destruct (chain_exec g est (parent_bound g sd (Some st) apt) st (to_workers t) 0 chain) as [exec tms] eqn:Ec.
      assert (Hst0 : st <= st0 <= TIME_INF /\ times0 = tms).
      { destruct (to_workers t) as [|w0 tw].
        - destruct (mtime x n _) as [mt|] eqn:E1; [|discriminate]. destruct (ztime x n _ _) as [zt|] eqn:E2; [|discriminate].
          apply lmat in E1. apply lzone in E2. injection Ef as <- _ <-. rewrite !tmax_spec. split; [lia|reflexivity].
        - destruct (validate _ _ _ _); [injection Ef as <- _ <-; auto|discriminate]. split; [lia|auto]. }
      destruct Hst0 as (Hst0 & ->).
      destruct (chain_exec_shape g est (to_workers t) Hest (parent_bound g sd (Some st) apt) st chain 0 exec tms ltac:(inf; lia) Ec) as (L1 & L2 & L3 & _).
      set (times := match sp_time (spec n) with Some a => _ | None => tms end) in Em.
      assert (Hne : chain <> []) by (destruct (chain_head g n chain Ech) as [r ->]; discriminate).
      assert (Htimes : length times = length chain /\ Forall (fun x => 0 <= fst x /\ 0 <= snd x) times).
      { destruct (Hspec n) as [_ Hspt]. unfold times. destruct (sp_time (spec n)) as [a|]; [|auto].
        destruct (assigned_times_spec (map (volume_of g) chain) a) as (A1 & A2 & _); [destruct chain; [congruence|discriminate]| |exact Hspt|].
        { apply Forall_forall. intros v Hv. apply in_map_iff in Hv as (m & <- & _). apply Hvol. }
        rewrite map_length in *. split; [exact A1|]. apply Forall_forall. intros y Hy. apply in_map_iff in Hy as (z & <- & Hz).
        rewrite Forall_forall in A2. simpl. split; [lia|apply A2; exact Hz]. }
      destruct Htimes as [T1 T2].
      destruct (site_place _ _ (to_workers t) (ct_id ct) st0 chain times sd x) as [[[fin sd1] x1]|] eqn:Ep; [|discriminate].
      destruct (update_timeline _ _ _ _) as [s1|] eqn:Eu; [|discriminate].
      destruct (occup _ _ _ _ _) as [x2|] eqn:Eo; [|discriminate]. injection Em as <- <- <-.
      assert (Hc0 : 0 <= st0 <= TIME_INF) by lia.
      destruct (place_history _ _ _ _ _ _ _ _ _ _ T1 T2 Hc0 Ep) as (new & out & A1 & A2 & A3).
      exists new, out. split; [exact A1|]. split; [|exact A3]. rewrite A2. f_equal. f_equal.
      unfold occup, land_occupy in Eo. destruct (update_zones _ _ _ _ _ _) as [[z ?]|]; [|discriminate]. injection Eo as <-. reflexivity.
    Qed.

    Lemma loop_history : forall nodes is_first sd s x sd' s' x', (is_first = true -> sd = []) ->
      loop is_first apt nodes sd (s, x) = Done (sd', (s', x')) ->
      exists new out, sd' = rev new ++ sd /\ hist (fst x) (map call_of out) = SupplyModel.Fine (out, fst x') /\ Forall2 supplied new out.
    Proof.
      induction nodes as [|n nodes IH]; intros is_first sd s x sd' s' x' Hf Hl; unfold loop in Hl; cbn [build_loop] in Hl.
      - injection Hl as <- <- <-. exists [], []. repeat split; constructor.
      - destruct (build_step _ _ _ _ _ _ _ _ _ _ _ _ _) as [[sd1 [s1 x1]]| |] eqn:Es; try discriminate.
        destruct (step_history _ _ _ _ _ _ _ _ _ Hf Es) as (new1 & out1 & A1 & A2 & A3).
        destruct (IH false _ _ _ _ _ _ ltac:(discriminate) Hl) as (new2 & out2 & B1 & B2 & B3).
        exists (new1 ++ new2), (out1 ++ out2). split; [rewrite B1, A1, rev_app_distr, app_assoc; reflexivity|].
        split; [|apply Forall2_app; assumption]. rewrite map_app. eapply history_app; eauto.
    Qed.
  End Run.
End Land.
