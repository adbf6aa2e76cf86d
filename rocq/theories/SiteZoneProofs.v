(** Zones and materials of the works that the list scheduler places. *)
From Coq Require Import ZArith List Bool Lia Arith Permutation.
From Coq Require Import ZifyBool ZifyNat.
From Verif Require Import TimeModel MomentumModel MomentumSpec MomentumHistory MomentumTeamProofs
  GraphModel ScheduleModel ScheduleSpec ContractorProofs ContractorTheorems TeamProofs ScheduleProofs
  SchedulePoolProofs ScheduleInv ScheduleSafe ZoneModel ZoneProofs ZoneTheorems SiteModel SiteProofs.
From Verif Require SupplyModel SupplyProofs4 SupplyProofs5.
Import ListNotations.
Local Open Scope Z_scope.

Lemma set_time_in t : - TIME_INF <= t <= TIME_INF -> set_time t = t.
Proof. intros H. destruct (set_time_cases t) as [[E _]|[[? E]|[? E]]]; lia. Qed.

(** ** The execution time of a chain that starts later than its parents allow *)
Lemma shifted_exec g est sd apt team c n st exec tms exec' tms' :
  estimator_ok est -> 0 <= apt <= TIME_INF -> parent_bound g sd None apt n <= st ->
  chain_exec g est (parent_bound g sd None apt) (parent_bound g sd None apt n) team 0 c = (exec, tms) ->
  chain_exec g est (parent_bound g sd (Some st) apt) st team 0 c = (exec', tms') ->
  st + exec < TIME_INF -> 0 <= exec' <= exec.
Proof.
  intros Hest Hapt Hst E E' Hinf. destruct (parent_bound_range g sd None apt n Hapt I) as [Hb1 Hb2].
  set (base := parent_bound g sd None apt n) in *.
  assert (Hbb : forall m, parent_bound g sd (Some st) apt m = Z.max (parent_bound g sd None apt m) st).
  { intros m. unfold parent_bound. rewrite !tmax_spec. lia. }
  assert (Hnt0 : forall m, 0 <= node_time g est team m) by (intros m; apply (node_time_ok g est team Hest m)).
  destruct (chain_exec_shape g est team Hest _ base c 0 exec tms ltac:(inf; lia) E) as (_ & _ & L3 & _).
  destruct (chain_exec_shape g est team Hest _ st c 0 exec' tms' ltac:(inf; lia) E') as (_ & _ & L3' & _).
  assert (Hbr : forall m, - TIME_INF <= parent_bound g sd None apt m <= TIME_INF).
  { intros m. destruct (parent_bound_range g sd None apt m Hapt I). inf. lia. }
  assert (Hbr' : forall m, - TIME_INF <= parent_bound g sd (Some st) apt m <= TIME_INF).
  { intros m. rewrite Hbb. specialize (Hbr m). inf. lia. }
  destruct (chain_exec_spec g est team Hest _ base Hbr ltac:(lia) c 0 exec tms ltac:(inf; lia) E ltac:(lia)) as [X _].
  replace (base + 0) with base in X by lia.
  assert (Hext : chain_finish (parent_bound g sd (Some st) apt) (node_time g est team) st c
                 = chain_finish (parent_bound g sd None apt) (node_time g est team) st c).
  { apply chain_finish_ext; [|exact Hnt0]. intros m _. rewrite Hbb. lia. }
  assert (Hlip : chain_finish (parent_bound g sd None apt) (node_time g est team) st c
                 <= chain_finish (parent_bound g sd None apt) (node_time g est team) base c + (st - base)).
  { replace st with (base + (st - base)) at 1 by lia. apply chain_finish_lip. lia. }
  assert (X' := chain_exec_exact g est team Hest _ st Hbr' ltac:(lia) c 0 exec' tms' ltac:(inf; lia) E').
  replace (st + 0) with st in X' by lia. rewrite Hext in X'. specialize (X' ltac:(lia)). lia.
Qed.

(** ** Zones *)
Lemma zright_mono l t t' : t <= t' -> (zright l t <= zright l t')%nat.
Proof.
  intros H. unfold zright. induction l as [|e l IH]; cbn; [lia|].
  destruct (Z.leb_spec (ztime e) t), (Z.leb_spec (ztime e) t'); cbn; lia.
Qed.
Lemma zslice_mono l i j j' x : (j <= j')%nat -> In x (zslice l i j) -> In x (zslice l i j').
Proof.
  intros H. unfold zslice. revert l j j' H. induction i as [|i IH]; intros l j j' H.
  - cbn [skipn]. revert l j' H. induction j as [|j IHj]; intros l j' H; [intros []|].
    destruct j' as [|j']; [lia|]. destruct l as [|y l]; cbn; [auto|]. intros [<-|Hx]; [left; reflexivity|right; apply IHj; [lia|exact Hx]].
  - destruct l as [|y l]; [rewrite !firstn_nil, !skipn_nil; auto|]. destruct j as [|j]; [cbn; intros []|].
    destruct j' as [|j']; [lia|]. cbn [firstn skipn]. apply IH. lia.
Qed.
Lemma zvalid_shorter l t exec exec' q : exec' <= exec -> zvalid l t exec q = true -> zvalid l t exec' q = true.
Proof.
  intros H. unfold zvalid. rewrite !andb_true_iff. intros [H1 H2]. split; [|exact H2].
  rewrite forallb_forall in *. intros e He. apply H1. eapply zslice_mono; [|exact He]. apply zright_mono.
  unfold tadd. destruct (set_time_cases (t + exec)) as [[-> ?]|[[? ->]|[? ->]]], (set_time_cases (t + exec')) as [[-> ?]|[[? ->]|[? ->]]]; inf; lia.
Qed.
Lemma zone_ok_shorter tl occ t exec exec' r : exec' <= exec -> zone_ok tl occ t exec r -> zone_ok tl occ t exec' r.
Proof.
  intros H [F (l & El & V)]. split; [|exists l; split; [exact El|eapply zvalid_shorter; eauto]].
  intros b Hb Hc. destruct (F b Hb Hc); [left; assumption|right; lia].
Qed.

Section Land.
  Variables (g : graph) (est : nat -> list worker -> Z).
  Variable route : Z -> nat -> nat -> list nat.
  Variable overcome : nat -> Z.
  Variable holders : nat -> list SupplyModel.depot.
  Variable storage : nat -> nat -> Z.
  Variable platform : nat -> nat.
  Variable needs : nat -> SupplyModel.request.
  Variable cost : nat -> nat -> Z.
  Variable zones : nat -> list zreq.
  Variable start : nat -> option nat.
  Hypothesis Hest : estimator_ok est.

  Let mtime := land_material_time route overcome holders storage platform needs.
  Let deliv := land_deliver route overcome holders storage platform needs.
  Let ztime := land_zone_time cost zones.
  Let occup := land_occupy cost zones.

  Lemma land_mat x n t r : mtime x n t = Some r -> r <= TIME_INF.
  Proof. unfold mtime, land_material_time. destruct (SupplyModel.find_min_material_time _ _ _ _ _ _ _ _); try discriminate. intros [= <-]. apply set_time_range. Qed.
  Lemma land_del x n t r x' : deliv x n t = Some (r, x') -> r <= TIME_INF.
  Proof. unfold deliv, land_deliver. destruct (SupplyModel.deliver _ _ _ _ _ _ _ _) as [[[o a] s]| |]; try discriminate. intros [= <- <-]. apply set_time_range. Qed.
  Lemma land_zone x n t e r : ztime x n t e = Some r -> r <= TIME_INF.
  Proof. unfold ztime, land_zone_time. destruct (find_min_zone_time _ _ _ _ _); [|discriminate]. intros [= <-]. apply set_time_range. Qed.

  Lemma deliv_zones x n t r x' : deliv x n t = Some (r, x') -> snd x' = snd x.
  Proof. unfold deliv, land_deliver. destruct (SupplyModel.deliver _ _ _ _ _ _ _ _) as [[[o a] s]| |]; try discriminate. intros [= <- <-]. reflexivity. Qed.
  Lemma place_zones team c : forall chain times curr sd x fin sd' x',
    site_place land deliv team c curr chain times sd x = Some (fin, sd', x') -> snd x' = snd x.
  Proof.
    induction chain as [|n chain IH]; intros times curr sd x fin sd' x' H; simpl in H; [injection H as _ _ <-; reflexivity|].
    destruct times as [|[lag t] times]; [injection H as _ _ <-; reflexivity|].
    destruct (deliv x n (tadd curr lag)) as [[a x1]|] eqn:Ed; [|discriminate]. apply deliv_zones in Ed. apply IH in H. congruence.
  Qed.
  Lemma place_extends {site} (dl : site -> nat -> Z -> option (Z * site)) team c : forall chain times curr sd x fin sd' x',
    site_place site dl team c curr chain times sd x = Some (fin, sd', x') -> exists pre, sd' = pre ++ sd.
  Proof.
    induction chain as [|n chain IH]; intros times curr sd x fin sd' x' H; simpl in H; [injection H as _ <- _; exists []; reflexivity|].
    destruct times as [|[lag t] times]; [injection H as _ <- _; exists []; reflexivity|].
    destruct (dl x n (tadd curr lag)) as [[a x1]|] eqn:Ed; [|discriminate]. apply IH in H as [pre ->].
    exists (pre ++ [(n, SW (tmax (tadd curr lag) a) (tadd (tmax (tadd curr lag) a) t) team c)]). rewrite <- app_assoc. reflexivity.
  Qed.

  (** ** Deliveries on time *)
  Lemma deliver_nothing x n t : needs n = [] -> - TIME_INF <= t <= TIME_INF -> deliv x n t = Some (t, x).
  Proof.
    intros Hn Ht. unfold deliv, land_deliver. rewrite Hn. cbn. rewrite set_time_in by exact Ht. destruct x; reflexivity.
  Qed.
  Lemma place_nothing team c : forall chain times curr sd x, (forall m, In m chain -> needs m = []) ->
    site_place land deliv team c curr chain times sd x
    = Some (fst (place_chain team c curr chain times sd), snd (place_chain team c curr chain times sd), x).
  Proof.
    induction chain as [|n chain IH]; intros times curr sd x Hn; cbn [site_place place_chain]; [reflexivity|].
    destruct times as [|[lag t] times]; [reflexivity|].
    rewrite deliver_nothing; [|apply Hn; left; reflexivity|apply set_time_range].
    replace (tmax (tadd curr lag) (tadd curr lag)) with (tadd curr lag) by (rewrite tmax_spec; lia).
    apply IH. intros m Hm. apply Hn. right. exact Hm.
  Qed.
  Lemma deliver_accepted x n t r : SupplyProofs4.plat_ok (fst x) -> 0 <= t <= TIME_INF ->
    mtime x n t = Some r -> r <= t -> t < TIME_INF -> forall a x', deliv x n t = Some (a, x') -> a = t.
  Proof.
    intros Hp Ht Hm Hr Hti a x' Hd. unfold mtime, land_material_time in Hm.
    destruct (SupplyModel.find_min_material_time _ _ _ _ _ _ _ _) as [T| |] eqn:Ef; try discriminate. injection Hm as <-.
    assert (HT : T <= t).
    { destruct (set_time_cases T) as [[E _]|[[? E]|[? E]]]; rewrite E in Hr; [exact Hr|lia|inf; lia]. }
    assert (G : t <= T).
    { destruct (Z.eq_dec T t) as [->|Ne]; [lia|]. 
      destruct (SupplyProofs4.min_time_again route overcome holders storage (fst x) (platform n) t (needs n) T Hp ltac:(lia) Ef) as (G & _ & _); [|exact G].
      right. intros. lia. }
    assert (T = t) by lia. subst T.
    destruct (SupplyProofs4.min_time_again route overcome holders storage (fst x) (platform n) t (needs n) t Hp ltac:(lia) Ef) as (_ & _ & G2); [right; intros; lia|].
    unfold deliv, land_deliver in Hd.
    destruct (SupplyProofs5.deliver_exact route overcome holders storage (fst x) (platform n) t (needs n) G2) as (o & s' & E).
    { intros E. rewrite E in Hd. discriminate. }
    rewrite E in Hd. injection Hd as <- _. apply set_time_in. inf. lia.
  Qed.
  Lemma deliv_plat x n t a x' : SupplyProofs4.plat_ok (fst x) -> deliv x n t = Some (a, x') -> SupplyProofs4.plat_ok (fst x').
  Proof.
    intros Hp. unfold deliv, land_deliver. destruct (SupplyModel.deliver _ _ _ _ _ _ _ _) as [[[o r] s]| |] eqn:E; try discriminate.
    intros [= <- <-]. eapply SupplyProofs4.deliver_plat; eauto.
  Qed.
  Lemma place_plat team c : forall chain times curr sd x fin sd' x', SupplyProofs4.plat_ok (fst x) ->
    site_place land deliv team c curr chain times sd x = Some (fin, sd', x') -> SupplyProofs4.plat_ok (fst x').
  Proof.
    induction chain as [|n chain IH]; intros times curr sd x fin sd' x' Hp H; simpl in H; [injection H as _ _ <-; exact Hp|].
    destruct times as [|[lag t] times]; [injection H as _ _ <-; exact Hp|].
    destruct (deliv x n (tadd curr lag)) as [[a x1]|] eqn:Ed; [|discriminate]. apply IH in H; [exact H|]. eapply deliv_plat; eauto.
  Qed.

  (** ** The start that was found *)
  Lemma find_agreed sd s x n w tw ind apt st ft times :
    site_find g est land mtime ztime sd (s, x) n (w :: tw) ind None apt = Some (st, ft, times) ->
    exists c exec mt zt, chain_of g n = Some c /\
      chain_exec g est (parent_bound g sd None apt) (parent_bound g sd None apt n) (w :: tw) 0 c = (exec, times) /\
      ft = tadd st exec /\ mtime x n st = Some mt /\ mt <= st /\ ztime x n st exec = Some zt /\ zt <= st.
  Proof.
    unfold site_find. destruct (chain_of g n) as [c|]; [|discriminate].
    destruct (chain_exec _ _ _ _ _ _ _) as [exec tms] eqn:Ec.
    destruct (repeat_until _ _ _) as [?|[r|]] eqn:Ef; try discriminate.
    destruct (validate _ _ _ _); [|discriminate]. intros [= <- <- <-].
    match type of Ef with repeat_until ?b ?f ?a = _ =>
      assert (H := repeat_until_inv (fun _ => True) (fun o => forall st, o = Some st -> exists mt zt, mtime x n st = Some mt /\ mt <= st /\ ztime x n st exec = Some zt /\ zt <= st) f) end.
    match type of H with ?A -> _ => assert (Hs : A) end.
    { intros cur _. unfold agree. destruct (find_min_start_time _ _ _ _ _ _ _) as [c0|]; [|discriminate].
      destruct (mtime x n c0) as [mt|] eqn:E1; [|discriminate]. unfold tlt. destruct (Z.ltb_spec c0 mt); [exact I|].
      destruct (ztime x n c0 exec) as [zt|] eqn:E2; [|discriminate]. destruct (Z.ltb_spec c0 zt); [exact I|].
      intros st0 [= <-]. eauto 10. }
    specialize (H Hs search_bound (parent_bound g sd None apt n) I). rewrite Ef in H. destruct (H r eq_refl) as (mt & zt & H1 & H2 & H3 & H4).
    exists c, exec, mt, zt. auto 10.
  Qed.

  Section Run.
    Variable optimize : nat -> nat -> sched -> mstate * land -> list border -> option (list bool) -> list Z -> option (list Z).
    Variables (cs : list contractor) (spec : nat -> work_spec) (apt : Z).
    Hypothesis Hcs : contractors_ok cs.
    Hypothesis Hopt : forall n c sd s, optimizer_ok (optimize n c sd s).
    Hypothesis Hreqs : forall n, reqs_ok (reqs_of g n).
    Hypothesis Hvol : forall n, 0 <= volume_of g n.
    Hypothesis Hspec : forall n, spec_ok (spec n).
    Hypothesis Hapt : 0 <= apt <= TIME_INF.
    Hypothesis cost0 : forall s q, s <> q -> cost s q = 0.
    Hypothesis Hzones : forall n, NoDup (map fst (zones n)) /\ forall r, In r (zones n) -> start (fst r) <> None.
    Hypothesis Hworkers : forall n, reqs_of g n = [] -> zones n = [].
    Hypothesis Htail : forall n c m, chain_of g n = Some c -> zones n <> [] -> In m (tl c) -> needs m = [].
    Hypothesis Hnotime : forall n, zones n <> [] -> sp_time (spec n) = None.

    Let sfind := site_times g est land mtime ztime.
    Let sched1 := site_schedule g est land mtime deliv ztime occup.
    Let step := build_step (mstate * land) sfind sched1 (reqs_of g) optimize cs spec.
    Let loop := build_loop (mstate * land) sfind sched1 (reqs_of g) optimize cs spec.

    Lemma schedule_extends sd sx n team c sp st sd' sx' : sched1 sd sx n team c sp st apt = Some (sd', sx') -> exists pre, sd' = pre ++ sd.
    Proof.
      unfold sched1, site_schedule. destruct sx as [s x]. destruct (chain_of g n); [|discriminate].
      destruct (site_find _ _ _ _ _ _ _ _ _ _ _ _) as [[[st0 ft0] times0]|]; [|discriminate].
      destruct (site_place _ _ _ _ _ _ _ _ _) as [[[fin sd1] x1]|] eqn:Ep; [|discriminate].
      destruct (update_timeline _ _ _ _); [|discriminate]. destruct (occup _ _ _ _ _); [|discriminate].
      intros [= <- <-]. eapply place_extends; eauto.
    Qed.
    Lemma loop_extends : forall nodes is_first sd sx sd' sx', loop is_first apt nodes sd sx = Done (sd', sx') -> exists pre, sd' = pre ++ sd.
    Proof.
      induction nodes as [|n nodes IH]; intros is_first sd sx sd' sx' H; unfold loop in H; cbn [build_loop] in H.
      - injection H as <- <-. exists []. reflexivity.
      - destruct (build_step _ _ _ _ _ _ _ _ _ _ _ _ _) as [[sd1 sx1]| |] eqn:Es; try discriminate.
        apply IH in H as [pre ->]. unfold build_step in Es. destruct (run_contractor_search _ _ _) as [[[[st ft] ct] team]| |]; try discriminate.
        destruct (sched1 _ _ _ _ _ _ _ _) as [[sd2 sx2]|] eqn:Em; [|discriminate]. injection Es as <- <-.
        apply schedule_extends in Em as [pre' ->]. exists (pre ++ pre'). rewrite app_assoc. reflexivity.
    Qed.

    (** What the occupations of zones have to do with the works: [occ] are the occupations. *)
    Record oinv (chains : list (list nat)) (sd : sched) (x : land) (occ : list occupation) (H : Z) : Prop := {
      o_plat : SupplyProofs4.plat_ok (fst x);
      o_winv : winv start (snd x) occ H;
      o_horizon : 0 <= H /\ 2 * H < TIME_INF;
      o_index : forall o, In o occ -> oc_work o <= Z.of_nat (length sd);
      o_works : forall hd r z q, In (hd :: r) chains -> In (z, q) (zones hd) ->
        exists i lo hi, In (Oc i z q lo hi) occ /\
          forall m w, In m (hd :: r) -> In (m, w) sd -> lo <= sw_start w /\ sw_finish w <= hi }.

    Lemma winv_mono tl occ H H' : H <= H' -> winv start tl occ H -> winv start tl occ H'.
    Proof.
      intros L W z. specialize (W z). destruct (start z); [|exact W]. destruct W as (l & E & I0). exists l. split; [exact E|].
      eapply zinv_mono; eauto.
    Qed.
    Lemma consecutive_last team c : forall l lo hi, consecutive team c lo l hi -> l <> [] -> exists n w, In (n, w) l /\ sw_finish w = hi.
    Proof.
      induction l as [|[n w] l IH]; intros lo hi H Hne; [congruence|]. simpl in H. destruct H as (_ & _ & _ & H).
      destruct l as [|y l]; [simpl in H; exists n, w; split; [left; reflexivity|exact H]|].
      destruct (IH _ _ H) as (m & v & Hin & E); [discriminate|]. exists m, v. split; [right; exact Hin|exact E].
    Qed.

    Lemma step_oinv is_first is_last n chains sd s x h occ H sd' s' x' c :
      sinv g cs spec chains sd s h -> oinv chains sd x occ H -> (is_first = true -> sd = [] /\ zones n = []) ->
      Z.of_nat (length chains) < TIME_INF ->
      chain_of g n = Some c -> NoDup (concat (chains ++ [c])) ->
      step is_first is_last apt n sd (s, x) = Done (sd', (s', x')) ->
      (forall m w, In (m, w) sd' -> 2 * sw_finish w < TIME_INF) ->
      exists occ' H', oinv (chains ++ [c]) sd' x' occ' H'.
    Proof.
      intros HI [OP OW OH OI OK] Hfirst Hlen Hch Hnd Hs Hfin.
      destruct (site_step_call g est land mtime deliv ztime occup land_mat land_del land_zone Hest optimize cs spec apt Hcs Hopt Hreqs Hvol Hspec Hapt
                  is_first is_last n sd s x sd' s' x' (fun E => proj1 (Hfirst E)) Hs)
        as (ct & t & st & Hct & Ht & Hst & Hstaff & Em & Hfound).
      assert (HX := i_idx _ _ _ _ _ _ _ _ HI). assert (HM := i_minv _ _ _ _ _ _ _ _ HI).
      destruct (site_schedule_spec g est land mtime deliv ztime occup land_mat land_del land_zone Hest
                  (pool_of cs) h sd s x n t (ct_id ct) (spec n) st apt sd' s' x' (Hspec n) Hvol HM ltac:(lia) Hapt Ht Hst Em)
        as (chain & new & st0 & fin & A1 & A2 & A3 & A4 & A4' & A5 & A6 & _).
      rewrite Hch in A1. injection A1 as <-.
      destruct (chain_head g n c Hch) as [r Er].
      assert (Hkeys := i_keys _ _ _ _ _ _ _ _ HI).
      assert (Hdisj : forall m, In m (concat chains) -> In m c -> False).
      { intros m H1 H2. rewrite concat_app in Hnd. simpl in Hnd. rewrite app_nil_r in Hnd. eapply nodup_app_disj; eauto. }
      (* old works are untouched *)
      assert (Hold : forall hd r0 z q, In (hd :: r0) chains -> In (z, q) (zones hd) ->
        exists i lo hi, In (Oc i z q lo hi) occ /\
          forall m w, In m (hd :: r0) -> In (m, w) sd' -> lo <= sw_start w /\ sw_finish w <= hi).
      { intros hd r0 z q Hc Hz. destruct (OK hd r0 z q Hc Hz) as (i & lo & hi & Ho & Hw). exists i, lo, hi. split; [exact Ho|].
        intros m w Hm Hin. apply (Hw m w Hm). rewrite A2 in Hin. apply in_app_or in Hin as [Hin|Hin]; [|exact Hin].
        exfalso. apply (Hdisj m); [eapply in_concat_elem; eauto|]. rewrite <- A3. apply in_rev in Hin. apply (in_sd_key new m w Hin). }
      assert (Hlen' : (length sd <= length sd')%nat) by (rewrite A2, app_length; lia).
      (* the call *)
      assert (Em' := Em). unfold sched1, site_schedule in Em'. rewrite Hch in Em'.
      destruct (site_find g est land mtime ztime sd (s, x) n (to_workers t) (sp_independent (spec n)) (Some st) apt) as [[[st1 ft1] times1]|] eqn:Ef1; [|discriminate].
      set (times := match sp_time (spec n) with Some a => _ | None => times1 end) in Em'.
      destruct (site_place land deliv (to_workers t) (ct_id ct) st1 c times sd x) as [[[fin1 sd1] x1]|] eqn:Ep; [|discriminate].
      destruct (update_timeline fin1 (tsub fin1 st1) (to_workers t) s) as [s1|] eqn:Eu; [|discriminate].
      destruct (occup x1 (Z.of_nat (length sd1)) n st1 (tsub fin1 st1)) as [x2|] eqn:Eo; [|discriminate].
      injection Em' as -> -> ->.
      assert (Hpl1 : SupplyProofs4.plat_ok (fst x1)) by (eapply place_plat; eauto).
      assert (Hz1 : snd x1 = snd x) by (eapply place_zones; eauto).
      destruct (zones n) as [|zr zs] eqn:Ezn.
      { (* no zones *)
        assert (Ex : x' = x1).
        { unfold occup, land_occupy in Eo. rewrite Ezn in Eo. simpl in Eo. injection Eo as <-. destruct x1; reflexivity. }
        subst x'. exists occ, H. constructor; auto.
        - rewrite Hz1. exact OW.
        - intros o Ho. specialize (OI o Ho). lia.
        - intros hd r0 z q Hc Hz. apply in_app_or in Hc as [Hc|[Hc|[]]]; [eauto|].
          rewrite Er in Hc. injection Hc as <- <-. rewrite Ezn in Hz. destruct Hz. }
      assert (Hne : zones n <> []) by (rewrite Ezn; discriminate). rewrite <- Ezn in *. clear zr zs Ezn.
      destruct Hfound as [Hf|(stf & ft & tmsf & Hfd & Hft & Est)]; [destruct (Hfirst Hf); contradiction|].
      (* the team is not empty *)
      assert (Hteam : to_workers t <> []).
      { intros E. assert (Hw : staffed g cs spec n (SW 0 0 (to_workers t) (ct_id ct))) by (apply Hstaff; reflexivity).
        destruct Hw as (ct' & _ & _ & _ & HF). simpl in HF. rewrite E in HF. inversion HF as [E0|]. apply Hne, Hworkers. symmetry. exact E0. }
      specialize (A4' Hteam).
      assert (Hst1 : st1 = st).
      { unfold site_find in Ef1. rewrite Hch in Ef1. destruct (chain_exec _ _ _ _ _ _ _). destruct (to_workers t); [congruence|].
        destruct (validate _ _ _ _); [|discriminate]. congruence. }
      subst st1.
      assert (Hstf : stf = st).
      { destruct (site_find_start g est land mtime deliv ztime occup land_mat land_del land_zone Hest sd s x n (to_workers t) (sp_independent (spec n)) apt stf ft tmsf Hapt Hfd Hft) as [B1 B2].
        destruct (parent_bound_range g sd None apt n Hapt I). rewrite Est. destruct is_last; [rewrite tmax_spec; lia|reflexivity]. }
      subst stf.
      destruct (parent_bound_range g sd None apt n Hapt I) as [Hb1 Hb2].
      destruct (to_workers t) as [|w tw] eqn:Etw; [congruence|].
      destruct (find_agreed sd s x n w tw (sp_independent (spec n)) apt st ft tmsf Hfd) as (c' & exec & mt & zt & Hc' & Ece & Eft & Emt & Hmt & Ezt & Hzt).
      rewrite Hch in Hc'. injection Hc' as <-.
      destruct (chain_exec_shape g est (w :: tw) Hest _ _ c 0 exec tmsf ltac:(inf; lia) Ece) as (_ & _ & Hx0 & _).
      assert (Hse : st + exec < TIME_INF).
      { rewrite Eft in Hft. rewrite tadd_min in Hft by lia. unfold is_inf in Hft. inf. lia. }
      (* the execution time of the call *)
      unfold site_find in Ef1. rewrite Hch in Ef1.
      assert (Hpb : parent_bound g sd (Some st) apt n = st).
      { unfold parent_bound in *. rewrite !tmax_spec in *. lia. }
      rewrite Hpb in Ef1.
      destruct (chain_exec g est (parent_bound g sd (Some st) apt) st (w :: tw) 0 c) as [exec' tms'] eqn:Ece'.
      destruct (validate _ _ _ _); [|discriminate]. injection Ef1 as _ <-.
      assert (Hsh := shifted_exec g est sd apt (w :: tw) c n st exec tmsf exec' tms' Hest Hapt (proj1 Hst) Ece Ece' Hse).
      assert (Et : times = tms') by (unfold times; rewrite (Hnotime n Hne); reflexivity).
      rewrite Et in Ep. clear times Et.
      (* the chain is placed without delay *)
      assert (Hbr' : forall m, - TIME_INF <= parent_bound g sd (Some st) apt m <= TIME_INF).
      { intros m. destruct (parent_bound_range g sd (Some st) apt m Hapt (proj2 Hst)). inf. lia. }
      assert (Hplace : exists x1', site_place land deliv (w :: tw) (ct_id ct) st c tms' sd x =
          Some (fst (place_chain (w :: tw) (ct_id ct) st c tms' sd), snd (place_chain (w :: tw) (ct_id ct) st c tms' sd), x1')).
      { rewrite Er in *. cbn [chain_exec] in Ece'. 
        set (tt := match reqs_of g n with [] => 0 | _ => est n (w :: tw) end) in *.
        replace (tsub (tsub (parent_bound g sd (Some st) apt n) st) 0) with 0 in Ece'.
        2: { rewrite Hpb. unfold tsub. replace (st - st) with 0 by lia. reflexivity. }
        cbn [Z.ltb] in Ece'. change (0 <? 0) with false in Ece'. cbv iota in Ece'.
        destruct (chain_exec _ _ _ _ _ _ _) as [e1 l1] in Ece'. injection Ece' as <- <-.
        cbn [site_place place_chain] in Ep |- *. assert (Es0 : tadd st 0 = st) by (unfold tadd; rewrite Z.add_0_r; apply set_time_in; inf; lia).
        rewrite Es0 in *. destruct (deliv x n st) as [[a xa]|] eqn:Ed; [|discriminate].
        assert (a = st) by (apply (deliver_accepted x n st mt OP ltac:(lia) Emt Hmt ltac:(lia) a xa Ed)). subst a.
        replace (tmax st st) with st in * by (rewrite tmax_spec; lia).
        eexists. apply place_nothing. intros m Hm. apply (Htail n (n :: r) m Hch Hne Hm). }
      destruct Hplace as [x1' Hplace]. rewrite Ep in Hplace. injection Hplace as Hfin1 Hsd1 _.
      destruct (place_chain (w :: tw) (ct_id ct) st c tms' sd) as [finp sdp] eqn:Epc. cbn [fst snd] in Hfin1, Hsd1. subst finp sdp.
      destruct (chain_place_bound g est (w :: tw) Hest _ st Hbr' ltac:(lia) c 0 exec' tms' (ct_id ct) st sd fin1 sd' ltac:(inf; lia) Ece' ltac:(lia) Epc) as [Hf1 _].
      assert (Hf2 : fin1 = st + exec') by lia.
      assert (Hnew0 : new <> []) by (intros ->; rewrite Er in A3; discriminate).
      assert (Efin : fin = fin1).
      { destruct (chain_exec_shape g est (w :: tw) Hest _ st c 0 exec' tms' ltac:(inf; lia) Ece') as (L1 & L2 & _ & _).
        destruct (place_shape _ _ _ _ _ _ _ _ L1 L2 (proj2 Hst) Epc) as (new' & M1 & M2 & M3).
        assert (new' = new).
        { rewrite A2 in M1. apply app_inv_tail in M1. rewrite <- (rev_involutive new'), <- M1, rev_involutive. reflexivity. }
        subst new'. destruct (consecutive_last _ _ _ _ _ A5 Hnew0) as (m & v & Hin & E1).
        destruct (consecutive_in _ _ _ _ _ _ _ M3 Hin) as (_ & Q1 & _).
        destruct (consecutive_last _ _ _ _ _ M3 Hnew0) as (m' & v' & Hin' & E1').
        destruct (consecutive_in _ _ _ _ _ _ _ A5 Hin') as (_ & Q1' & _). lia. }
      assert (Hfh : 2 * fin1 < TIME_INF).
      { destruct (consecutive_last _ _ _ _ _ A5 Hnew0) as (m & v & Hin & E1). rewrite <- Efin, <- E1. apply (Hfin m v).
        rewrite A2. apply in_or_app. left. apply in_rev. rewrite rev_involutive. exact Hin. }
      (* the zones are free *)
      destruct (Hzones n) as [Znd Zst].
      assert (Hexec : exec <= fin1).
      { assert (Hbr : forall m, - TIME_INF <= parent_bound g sd None apt m <= TIME_INF).
        { intros m. destruct (parent_bound_range g sd None apt m Hapt I). inf. lia. }
        destruct (chain_exec_spec g est (w :: tw) Hest _ (parent_bound g sd None apt n) Hbr ltac:(lia) c 0 exec tmsf ltac:(inf; lia) Ece ltac:(lia)) as [X _].
        destruct (chain_exec_spec g est (w :: tw) Hest _ st Hbr' ltac:(lia) c 0 exec' tms' ltac:(inf; lia) Ece' ltac:(lia)) as [X' _].
        assert (Hext : chain_finish (parent_bound g sd (Some st) apt) (node_time g est (w :: tw)) (st + 0) c
                       = chain_finish (parent_bound g sd None apt) (node_time g est (w :: tw)) (st + 0) c).
        { apply chain_finish_ext; [|intros m; apply (node_time_ok g est (w :: tw) Hest m)]. intros m _. unfold parent_bound. rewrite !tmax_spec. lia. }
        assert (Mono := chain_finish_mono (parent_bound g sd None apt) (node_time g est (w :: tw)) c (parent_bound g sd None apt n + 0) (st + 0) ltac:(lia)).
        lia. }
      destruct (find_ok cost cost0 start (snd x) occ H (zones n) st exec OW Znd Zst ltac:(lia) ltac:(lia) ltac:(lia)) as (zt' & Ezt' & Hzt' & Hzok).
      assert (zt' = st).
      { unfold ztime, land_zone_time in Ezt. rewrite Ezt' in Ezt. cbn [option_map] in Ezt. injection Ezt as Ezt. rewrite set_time_in in Ezt by (inf; lia). lia. }
      subst zt'.
      set (H' := Z.max H fin1).
      destruct (update_ok cost cost0 start (Z.of_nat (length sd')) st exec' H' ltac:(lia) ltac:(lia) ltac:(lia) ltac:(lia) ltac:(unfold H'; lia)
                  (zones n) (snd x) occ) as (tl' & ts & Eup & W').
      - eapply winv_mono; [|exact OW]. unfold H'. lia.
      - exact Znd.
      - intros zr Hr. split; [eapply zone_ok_shorter; [|apply Hzok; exact Hr]; lia|]. split; [apply Zst, Hr|].
        intros o Ho _. specialize (OI o Ho). assert (length sd < length sd')%nat; [|lia].
        rewrite A2, app_length, rev_length. destruct new; [congruence|]. simpl. lia.
      - unfold occup, land_occupy in Eo. rewrite Hz1 in Eo. rewrite tsub_exact in Eo by lia.
        replace (fin1 - st) with exec' in Eo by lia. rewrite Eup in Eo. injection Eo as <-.
        exists (occ ++ map (fun zr => Oc (Z.of_nat (length sd')) (fst zr) (snd zr) st (st + exec')) (zones n)), H'.
        constructor; cbn [fst snd].
        + exact Hpl1.
        + exact W'.
        + unfold H'. lia.
        + intros o Ho. apply in_app_or in Ho as [Ho|Ho]; [specialize (OI o Ho); lia|]. apply in_map_iff in Ho as (zr & <- & _). cbn. lia.
        + intros hd r0 z q Hc Hz. apply in_app_or in Hc as [Hc|[Hc|[]]].
          * destruct (Hold hd r0 z q Hc Hz) as (i & lo & hi & Ho & Hw). exists i, lo, hi. split; [apply in_or_app; left; exact Ho|exact Hw].
          * rewrite Er in Hc. injection Hc as <- <-. exists (Z.of_nat (length sd')), st, (st + exec'). split.
            { apply in_or_app. right. apply in_map_iff. exists (z, q). split; [reflexivity|exact Hz]. }
            intros m v Hm Hin. rewrite A2 in Hin. apply in_app_or in Hin as [Hin|Hin].
            { apply in_rev in Hin. destruct (consecutive_in _ _ _ _ _ _ _ A5 Hin) as (Q1 & Q2 & _). lia. }
            exfalso. apply (Hdisj m); [|rewrite Er; exact Hm]. apply in_sd_key in Hin. rewrite Hkeys in Hin. apply in_rev in Hin. exact Hin.
    Qed.

    Lemma loop_oinv : forall nodes is_first chains rest sd s x h occ H sd' s' x',
      sinv g cs spec chains sd s h -> oinv chains sd x occ H ->
      (is_first = true -> sd = [] /\ forall n, hd_error nodes = Some n -> zones n = []) ->
      chains_of g nodes = Some rest ->
      Z.of_nat (length (chains ++ rest)) < TIME_INF ->
      NoDup (concat (chains ++ rest)) ->
      (forall e, In e (g_edges g) -> In (e_from e) (concat (chains ++ rest)) -> In (e_to e) (concat (chains ++ rest)) ->
         comes_before (concat (chains ++ rest)) (e_from e) (e_to e)) ->
      loop is_first apt nodes sd (s, x) = Done (sd', (s', x')) ->
      (forall m w, In (m, w) sd' -> 2 * sw_finish w < TIME_INF) ->
      exists occ' H', oinv (chains ++ rest) sd' x' occ' H'.
    Proof.
      induction nodes as [|n nodes IH]; intros is_first chains rest sd s x h occ H sd' s' x' HI HO Hf Hch Hlen Hnd Htopo Hl Hfin.
      - simpl in Hch. injection Hch as <-. rewrite app_nil_r. simpl in Hl. injection Hl as <- <- <-. eauto.
      - cbn [chains_of] in Hch. destruct (chain_of g n) as [c|] eqn:Ec; [|discriminate].
        destruct (chains_of g nodes) as [rest'|] eqn:Er; [|discriminate]. injection Hch as <-.
        unfold loop in Hl. cbn [build_loop] in Hl. fold loop in Hl. fold step in Hl.
        destruct (step _ _ _ _ _ _) as [[sd1 [s1 x1]]| |] eqn:Es; try discriminate.
        assert (Eapp : chains ++ c :: rest' = (chains ++ [c]) ++ rest') by (rewrite <- app_assoc; reflexivity).
        rewrite Eapp in *. rewrite concat_app in Hnd, Htopo.
        assert (Hnd1 : NoDup (concat (chains ++ [c]))) by (eapply nodup_app_l; exact Hnd).
        assert (Hlen1 : Z.of_nat (length chains) < TIME_INF) by (rewrite !app_length in Hlen; simpl in Hlen; lia).
        assert (Hs : exists h1, sinv g cs spec (chains ++ [c]) sd1 s1 h1).
        { eapply (site_step_inv g est land mtime deliv ztime occup land_mat land_del land_zone Hest optimize cs spec apt Hcs Hopt Hreqs Hvol Hspec Hapt);
            [exact HI|intros E; apply Hf in E; apply E|exact Hlen1|exact Ec|exact Hnd1| |exact Es].
          intros e He H1 H2. eapply comes_before_prefix; [exact Hnd| |exact H2].
          apply Htopo; [exact He|apply in_or_app; left; exact H1|apply in_or_app; left; exact H2]. }
        destruct Hs as [h1 HI1].
        destruct (loop_extends _ _ _ _ _ _ Hl) as [pre Epre].
        destruct (step_oinv is_first (match nodes with [] => true | _ => false end) n chains sd s x h occ H sd1 s1 x1 c HI HO) as (occ1 & H1 & HO1); auto.
        { intros E. destruct (Hf E) as [F1 F2]. split; [exact F1|apply F2; reflexivity]. }
        { intros m w Hin. apply (Hfin m w). rewrite Epre. apply in_or_app. right. exact Hin. }
        apply (IH false (chains ++ [c]) rest' sd1 s1 x1 h1 occ1 H1 sd' s' x'); auto.
        + discriminate.
        + rewrite concat_app. exact Hnd.
        + rewrite concat_app. exact Htopo.
    Qed.
  End Run.
End Land.
