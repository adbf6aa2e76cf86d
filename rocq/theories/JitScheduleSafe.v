(** The list scheduler over the release-time timeline raises no internal error. *)
From Coq Require Import ZArith List Bool Lia Arith.
From Coq Require Import ZifyBool ZifyNat.
From Verif Require Import TimeModel MomentumModel MomentumSpec MomentumHistory MomentumTeamProofs
  JITModel JITHistory JITProofs GraphModel ScheduleModel ScheduleSpec ContractorProofs TeamProofs ScheduleProofs
  SchedulePoolProofs ScheduleInv ScheduleSafe JitScheduleInv.
Import ListNotations.
Local Open Scope Z_scope.

Lemma spec_total' cs reqs s ct bs f : spec_fits cs reqs s ->
  get_worker_borders (pool_of cs) ct reqs = Some bs ->
  (length (sp_workers s) <> length bs -> optimize_using_spec (sp_workers s) (map bd_kind bs) (map bd_count bs) f <> None) ->
  optimize_using_spec (sp_workers s) (map bd_kind bs) (map bd_count bs) f <> None.
Proof.
  intros [_ Hfit] Hb Hf. revert Hf. apply borders_spec in Hb. assert (Hl := Forall2_len _ _ _ Hb).
  unfold optimize_using_spec. rewrite map_length. destruct (Nat.eqb_spec (length (sp_workers s)) (length bs)) as [E|E].
  - intros _. destruct (all_spec_counts_total (sp_workers s) (map bd_kind bs)) as [l ->]; [|discriminate].
    intros k Hk. specialize (Hfit ltac:(lia)).
    assert (Hin : In k (map fst (sp_workers s))).
    { clear -Hb Hk Hfit. induction Hb as [|r b rs bs' Hrb Hb IH]; simpl in Hk; [destruct Hk|].
      destruct Hk as [<-|Hk]; [|apply IH; auto; intros r' Hr'; apply Hfit; right; exact Hr'].
      destruct Hrb as [-> _]. apply Hfit. left. reflexivity. }
    clear -Hin. induction (sp_workers s) as [|[k' m] l IH]; simpl in *; [destruct Hin|].
    destruct (Nat.eqb_spec k' k); [discriminate|]. destruct Hin; [congruence|auto].
  - intros Hf. exact (Hf E).
Qed.

Lemma borders_able' cs ct reqs : contractors_ok cs -> In ct cs ->
  get_worker_borders (pool_of cs) (ct_id ct) reqs = None -> ~ able ct reqs.
Proof.
  intros Hcs Hct H Hable. apply borders_none in H as (r & Hr & Hc). destruct (Hable r Hr) as (m & Hm & Hle).
  rewrite (capacity_pool cs ct (r_kind r) m Hcs Hct Hm) in Hc. lia.
Qed.

(** ** Chains are linked by inseparable edges *)
Fixpoint linked (g : graph) (a : nat) (chain : list nat) : Prop :=
  match chain with
  | [] => True
  | b :: r => inseparable_parent g b = Some a /\
              (exists e, In e (g_edges g) /\ e_from e = a /\ e_to e = b /\ 0 <= e_lag e) /\ linked g b r
  end.

Lemma son_linked g a b : single_inseparable_parent g -> inseparable_lags_ok g ->
  inseparable_son g a = Some b ->
  inseparable_parent g b = Some a /\ exists e, In e (g_edges g) /\ e_from e = a /\ e_to e = b /\ 0 <= e_lag e.
Proof.
  intros H1 H2 H. unfold inseparable_son in H.
  destruct (filter _ (edges_from g a)) as [|e l] eqn:E; [discriminate|]. injection H as <-.
  assert (He : In e (filter (fun e => is_ifs (e_type e)) (edges_from g a))) by (rewrite E; left; reflexivity).
  apply filter_In in He as [He Hi]. unfold edges_from in He. apply filter_In in He as [He Hf]. apply Nat.eqb_eq in Hf.
  assert (Ht : e_type e = IFS) by (destruct (e_type e); try discriminate; reflexivity).
  split; [|exists e; auto].
  unfold inseparable_parent. destruct (filter (fun e0 => is_ifs (e_type e0)) (edges_to g (e_to e))) as [|e' l'] eqn:E'.
  - exfalso. assert (X : In e []); [|destruct X]. rewrite <- E'. apply filter_In. split; [|rewrite Ht; reflexivity].
    apply filter_In. split; [exact He|apply Nat.eqb_refl].
  - assert (He' : In e' (e' :: l')) by (left; reflexivity). rewrite <- E' in He'.
    apply filter_In in He' as [He' Hi']. unfold edges_to in He'. apply filter_In in He' as [He' Ht']. apply Nat.eqb_eq in Ht'.
    assert (e_type e' = IFS) by (destruct (e_type e'); try discriminate; reflexivity).
    f_equal. rewrite <- Hf. apply H1; auto.
Qed.

Lemma children_linked g : single_inseparable_parent g -> inseparable_lags_ok g -> forall fuel a r,
  inseparable_children fuel g a = Some r -> linked g a r.
Proof.
  intros H1 H2. induction fuel as [|fuel IH]; intros a r H; simpl in H; [discriminate|].
  destruct (inseparable_son g a) as [b|] eqn:E; [|injection H as <-; exact I].
  destruct (inseparable_children fuel g b) as [r'|] eqn:Er; [|discriminate]. injection H as <-.
  destruct (son_linked g a b H1 H2 E) as [A B]. simpl. auto.
Qed.

Lemma chain_linked g n c : single_inseparable_parent g -> inseparable_lags_ok g -> inseparable_parent g n = None ->
  chain_of g n = Some c -> exists r, c = n :: r /\ linked g n r.
Proof.
  intros H1 H2 Hp H. unfold chain_of in H. rewrite Hp in H. destruct (inseparable_son g n) as [b|] eqn:E.
  - destruct (inseparable_children _ _ _) as [r|] eqn:Er; [|discriminate]. injection H as <-. exists r. split; [reflexivity|].
    eapply children_linked; eauto.
  - injection H as <-. exists []. split; [reflexivity|exact I].
Qed.

Section Place.
  Variables (g : graph) (est : nat -> list worker -> Z) (team : list worker) (c : nat).
  Definition placeable (sd : sched) (n : nat) : bool :=
    match inseparable_parent g n with
    | None => true
    | Some q => match sd_get sd q with None => false | Some w => sw_finish w <=? min_start_time g sd n end
    end.
  Lemma jit_place_linked : forall chain a wa curr times sd, linked g a chain -> sw_finish wa <= TIME_INF ->
    exists fin sd', jit_place g est team c curr chain times ((a, wa) :: sd) = Some (fin, sd').
  Proof.
    induction chain as [|b chain IH]; intros a wa curr times sd Hl Hw; [do 2 eexists; reflexivity|].
    destruct Hl as (L1 & (e & E1 & E2 & E3 & E4) & L3). cbn [jit_place]. rewrite L1. cbn [sd_get]. rewrite Nat.eqb_refl.
    assert (Hm := min_start_ge g ((a, wa) :: sd) e wa E1 ltac:(rewrite E2; cbn [sd_get]; rewrite Nat.eqb_refl; reflexivity)).
    rewrite E3 in Hm. assert (Hg := tadd_ge (sw_finish wa) (e_lag e) E4 Hw).
    destruct (Z.leb_spec (sw_finish wa) (min_start_time g ((a, wa) :: sd) b)); [|lia].
    destruct (match times with Some _ => _ | None => _ end) as [t tr].
    apply IH; [exact L3|]. simpl. apply set_time_range.
  Qed.
  Lemma jit_place_total n r curr times sd : inseparable_parent g n = None -> linked g n r ->
    exists fin sd', jit_place g est team c curr (n :: r) times sd = Some (fin, sd').
  Proof.
    intros Hn Hl. cbn [jit_place]. rewrite Hn.
    destruct (match times with Some _ => _ | None => _ end) as [t tr].
    apply jit_place_linked; [exact Hl|]. simpl. apply set_time_range.
  Qed.
End Place.

(** ** Bounds *)
Lemma tadd_le_sum a b : 0 <= a + b -> tadd a b <= a + b.
Proof. intros H. inf. unfold tadd. destruct (set_time_cases (a + b)) as [[E R]|[[R E]|[R E]]]; lia. Qed.

Definition jbelow (B : Z) (sd : sched) (s : jtimeline) : Prop :=
  (forall n w, In (n, w) sd -> sw_finish w <= B) /\ times_le B s.

Lemma min_start_le g B Lg sd n : 0 <= Lg -> (forall e, In e (g_edges g) -> e_lag e <= Lg) -> 0 <= B ->
  (forall m w, In (m, w) sd -> sw_finish w <= B) -> min_start_time g sd n <= B + Lg.
Proof.
  intros HL0 HL HB Hs. unfold min_start_time.
  destruct (max_default0_in (parent_times sd (edges_to g n))) as [->|E]; [lia|].
  apply parent_times_in in E as (e & w & He & Hw & ->). unfold edges_to in He. apply filter_In in He as [He _].
  apply sd_get_in_weak in Hw. apply Hs in Hw. assert (A := HL e He).
  inf. unfold tadd. destruct (set_time_cases (sw_finish w + e_lag e)) as [[E1 R]|[[R1 R2]|[R1 R2]]]; lia.
Qed.

Section Bounds.
  Variables (g : graph) (est : nat -> list worker -> Z) (D Lg : Z).
  Hypothesis Hest : estimator_ok est.
  Hypothesis HL0 : 0 <= Lg.
  Hypothesis HL : forall e, In e (g_edges g) -> e_lag e <= Lg.

  Lemma jit_place_le team c : forall chain curr sd fin sd' B, (forall m, In m chain -> est m team <= D) -> 0 <= D -> 0 <= curr <= B -> B < TIME_INF ->
    (forall m w, In (m, w) sd -> sw_finish w <= B) ->
    jit_place g est team c curr chain None sd = Some (fin, sd') ->
    fin <= B + Z.of_nat (length chain) * (D + Lg) /\
    (forall m w, In (m, w) sd' -> sw_finish w <= B + Z.of_nat (length chain) * (D + Lg)).
  Proof.
    intros chain. induction chain as [|n chain IH]; intros curr sd fin sd' B HD HD0 Hc HB Hs H.
    - cbn [jit_place] in H. injection H as <- <-. simpl. split; [lia|]. intros m w Hin. apply Hs in Hin. lia.
    - cbn [jit_place] in H. destruct (match inseparable_parent g n with Some _ => _ | None => true end); [|discriminate].
      assert (Hm := min_start_le g B Lg sd n HL0 HL ltac:(lia) Hs).
      assert (He := HD n (or_introl eq_refl)). assert (He0 := Hest n team).
      set (start := tmax (tadd curr 0) (min_start_time g sd n)) in *.
      assert (A := tadd_le_sum curr 0 ltac:(lia)).
      assert (A2 := tadd_ge curr 0 ltac:(lia) ltac:(lia)).
      assert (Hst : 0 <= start <= B + Lg) by (unfold start; rewrite tmax_spec; lia). clearbody start.
      assert (F := tadd_le_sum start (est n team) ltac:(lia)).
      assert (Hst2 : start <= TIME_INF \/ TIME_INF < start) by lia.
      assert (F0 : 0 <= tadd start (est n team)).
      { inf. unfold tadd. destruct (set_time_cases (start + est n team)) as [[E1 R]|[[R1 R2]|[R1 R2]]]; lia. }
      cbn [length]. rewrite Nat2Z.inj_succ.
      destruct (Z.lt_ge_cases (B + D + Lg) TIME_INF) as [Hlt|Hge].
      + assert (Hs' : forall m w, In (m, w) ((n, SW start (tadd start (est n team)) team c) :: sd) -> sw_finish w <= B + D + Lg).
        { intros m w [[= <- <-]|Hin]; [simpl; lia|]. apply Hs in Hin. lia. }
        assert (Hc' : 0 <= tadd start (est n team) <= B + D + Lg) by lia.
        destruct (IH _ _ _ _ (B + D + Lg) (fun x Hx => HD x (or_intror Hx)) HD0 Hc' Hlt Hs' H) as [I1 I2]. split; [nia|]. intros m w Hin. apply I2 in Hin. nia.
      + destruct (jit_place_shape g est team c Hest chain _ None _ fin sd' I (proj2 (set_time_range _)) H) as (new & N1 & N2 & N3 & N4).
        split; [nia|]. intros m w Hin. rewrite N1 in Hin. apply in_app_or in Hin as [Hin|[[= <- <-]|Hin]].
        * apply in_rev in Hin. destruct (consecutive_in _ _ _ _ _ _ _ N3 Hin) as (_ & Q & _). nia.
        * simpl. nia.
        * apply Hs in Hin. nia.
  Qed.

  Lemma jit_exec_le sd team : forall chain cur B, (forall m, In m chain -> est m team <= D) -> 0 <= D -> 0 <= B -> 0 <= cur <= B + Lg ->
    (forall m w, In (m, w) sd -> sw_finish w <= B) ->
    0 <= jit_chain_exec g est sd team cur chain <= B + Lg + Z.of_nat (length chain) * D.
  Proof.
    assert (K : forall chain cur B k, (forall m, In m chain -> est m team <= D) -> 0 <= D -> 0 <= B -> 0 <= k -> 0 <= cur <= B + Lg + k * D ->
      (forall m w, In (m, w) sd -> sw_finish w <= B) ->
      0 <= jit_chain_exec g est sd team cur chain <= B + Lg + (k + Z.of_nat (length chain)) * D).
    { induction chain as [|n chain IH]; intros cur B k HD HD0 HB Hk Hc Hs; cbn [jit_chain_exec length].
      - nia.
      - assert (Hm := min_start_le g B Lg sd n HL0 HL HB Hs).
        assert (He := HD n (or_introl eq_refl)). assert (He0 := Hest n team).
        set (st := tmax cur (min_start_time g sd n)).
        assert (Hst : 0 <= st <= B + Lg + k * D) by (unfold st; rewrite tmax_spec; nia). clearbody st.
        assert (F := tadd_le_sum st (est n team) ltac:(lia)).
        assert (F0 : 0 <= tadd st (est n team)).
        { inf. unfold tadd. destruct (set_time_cases (st + est n team)) as [[E1 R]|[[R1 R2]|[R1 R2]]]; lia. }
        rewrite Nat2Z.inj_succ. replace (k + Z.succ (Z.of_nat (length chain))) with ((k + 1) + Z.of_nat (length chain)) by lia.
        apply IH; auto; [intros x Hx; apply HD; right; exact Hx|nia|nia]. }
    intros chain cur B HD HD0 HB Hc Hs. replace (Z.of_nat (length chain)) with (0 + Z.of_nat (length chain)) by lia.
    apply K; auto; lia.
  Qed.
End Bounds.

(** ** The loop *)
Section JitSafe.
  Variables (g : graph) (est : nat -> list worker -> Z)
    (optimize : nat -> nat -> sched -> jtimeline -> list border -> option (list bool) -> list Z -> option (list Z))
    (cs : list contractor) (spec : nat -> work_spec) (apt D Lg : Z).
  Hypothesis Hcs : contractors_ok cs.
  Hypothesis Hest : estimator_ok est.
  Hypothesis Hopt : forall n c sd s, optimizer_ok (optimize n c sd s).
  Hypothesis Hans : optimizer_answers (jit_find g est) optimize (reqs_of g) cs spec apt.
  Hypothesis Hreqs : forall n, reqs_ok (reqs_of g n).
  Hypothesis Hvol : forall n, 0 <= volume_of g n.
  Hypothesis Hspec : forall n, spec_ok (spec n).
  Hypothesis Hfit : forall n, spec_fits cs (reqs_of g n) (spec n).
  Hypothesis Hapt : 0 <= apt <= TIME_INF.
  Hypothesis Hsingle : single_inseparable_parent g.
  Hypothesis Hlags : inseparable_lags_ok g.
  Hypothesis HD : 0 <= D /\ estimates_bounded g est cs spec D.
  Hypothesis HL : 0 <= Lg /\ forall e, In e (g_edges g) -> e_lag e <= Lg.
  Hypothesis Hnotime : forall n, sp_time (spec n) = None.

  Let jfind := jit_find g est.
  Let step := build_step jtimeline jfind (jit_schedule g est) (reqs_of g) optimize cs spec.
  Let loop := build_loop jtimeline jfind (jit_schedule g est) (reqs_of g) optimize cs spec.
  Let p := pool_of cs.

  Lemma jrunner_ok B sd s n c ct : jinv p s -> jbelow B sd s -> apt <= B -> In ct (filter_contractors (spec n) cs) ->
    chain_of g n = Some c -> 2 * B + Lg + Z.of_nat (length c) * D < TIME_INF ->
    exists st ft tm, run_with_contractor jtimeline jfind (reqs_of g) optimize cs spec sd s n apt ct = Done (st, ft, tm) /\
      ((get_worker_borders p (ct_id ct) (reqs_of g n) = None /\ ft = TIME_INF) \/
       exists t, tm = to_workers t /\ team_within p t /\ (forall m, In m c -> est m (to_workers t) <= D) /\ 0 <= st <= B /\ 0 <= ft < TIME_INF).
  Proof.
    intros Hi [HB1 HB2] Hb Hct Hc Hinf. apply enabled_cases in Hct as [Hct Hen].
    unfold run_with_contractor. fold p. destruct (get_worker_borders p (ct_id ct) (reqs_of g n)) as [bs|] eqn:Eb.
    2: { do 3 eexists. split; [reflexivity|]. left. split; reflexivity. }
    destruct HD as [HD0 HD1], HL as [HL0 HL1].
    assert (Hf : forall t, team_within p t -> (forall m, In m c -> est m (to_workers t) <= D) ->
      exists st ft, jfind sd s n (to_workers t) (sp_independent (spec n)) apt = Some (st, ft) /\ 0 <= st <= B /\ 0 <= ft < TIME_INF).
    { intros t Htw Hed. unfold jfind, jit_find. destruct sd as [|x sd0] eqn:Es.
      - exists apt, apt. split; [reflexivity|]. nia.
      - rewrite Hc.
        destruct (find_agents_spec p s (sp_independent (spec n)) t Hi Htw 0) as (r & R1 & R2 & _).
        rewrite R1. do 2 eexists. split; [reflexivity|].
        assert (Hr := find_agents_le B _ _ HB2 _ 0 r ltac:(lia) R1).
        assert (He := jit_exec_le g est D Lg Hest HL0 HL1 (x :: sd0) (to_workers t) c 0 B Hed HD0 ltac:(lia) ltac:(lia) HB1).
        split; [lia|]. assert (A := tadd_le_sum r (jit_chain_exec g est (x :: sd0) (to_workers t) 0 c) ltac:(lia)).
        assert (F0 : 0 <= tadd r (jit_chain_exec g est (x :: sd0) (to_workers t) 0 c)).
        { inf. unfold tadd. destruct (set_time_cases (r + jit_chain_exec g est (x :: sd0) (to_workers t) 0 c)) as [[E1 R]|[[Ra Rb]|[Ra Rb]]]; lia. }
        lia. }
    destruct (optimize_using_spec _ _ _ _) as [counts|] eqn:Eo.
    2: { exfalso. revert Eo. eapply spec_total'; [apply Hfit|exact Eb|]. intros Hne.
         apply (Hans n (ct_id ct) sd s bs Eb Hne). intros counts Hw.
         assert (HC : Forall2 (count_ok [] false) bs counts) by (unfold count_ok; exact Hw).
         destruct (counted_team p (reqs_of g n) [] false (ct_id ct) bs counts (Hreqs n) ltac:(intros k m []) Eb HC) as (t & T1 & T2 & T3 & T4 & T5).
         assert (Hed : forall m, In m c -> est m (to_workers t) <= D).
         { intros m Hm. rewrite <- T1. apply (HD1 n c m ct); auto. apply (team_for_of p ct (spec n) [] false); [intros k x []|exact T5]. }
         unfold team_of_counts. rewrite T1 in *. destruct (Hf t) as (st & ft & F1 & _); [| |unfold jfind in F1; rewrite F1; discriminate].
         apply (team_within_of cs (fun _ => WSpec [] [] None false) n ct t (reqs_of g n)); [exact Hcs| |exact T2|exact T3|left; reflexivity|].
         - split; [intros ? ? ? ? ? ? []|]. cbn. intros El r Hr. destruct (reqs_of g n); [destruct Hr|discriminate].
         - cbn [sp_workers]. clear -T5. induction T5 as [|r k rs ks (W1 & W2 & W3 & cap & W4 & W5) _ IH]; constructor; [eauto 8|exact IH].
         - exact Hed. }
    destruct (chosen_team _ _ _ _ _ _ _ (Hopt n (ct_id ct) sd s) (Hreqs n) (proj1 (Hspec n)) Eb Eo) as (t & T1 & T2 & T3 & T4 & T5).
    set (tm := map (fun kc => Wk _ _ _) _) in *.
    assert (Htw : team_within p t).
    { rewrite T1 in T3, T5. eapply team_within_of; eauto. }
    assert (Hed : forall m, In m c -> est m (to_workers t) <= D).
    { intros m Hm. rewrite <- T1. apply (HD1 n c m ct); auto. eapply team_for_of; [|exact T5]. auto. }
    destruct (Hf t Htw Hed) as (st & ft & Hf' & F1 & F2). rewrite T1, Hf'. do 3 eexists. split; [reflexivity|]. right. exists t. auto.
  Qed.

  Lemma jstep_safe B is_first is_last sd s n c : jinv p s -> jbelow B sd s -> apt <= B ->
    inseparable_parent g n = None ->
    chain_of g n = Some c -> 2 * B + Lg + Z.of_nat (length c) * D < TIME_INF ->
    match step is_first is_last apt n sd s with
    | Crash => False
    | NoContractor => forall ct, In ct cs -> (sp_contractors (spec n) = [] \/ In (ct_id ct) (sp_contractors (spec n))) ->
                        ~ able ct (reqs_of g n)
    | Done (sd', s') => jbelow (B + Z.of_nat (length c) * (D + Lg)) sd' s'
    end.
  Proof.
    intros Hi HB Hb Hp Hc Hinf.
    assert (HR : forall ct, In ct (filter_contractors (spec n) cs) -> exists r,
              run_with_contractor jtimeline jfind (reqs_of g) optimize cs spec sd s n apt ct = Done r).
    { intros ct Hct. destruct (jrunner_ok B sd s n c ct Hi HB Hb Hct Hc Hinf) as (st & ft & tm & R & _). eauto. }
    assert (HRg : forall c0 st0 ft0 tm0, run_with_contractor jtimeline jfind (reqs_of g) optimize cs spec sd s n apt c0 = Done (st0, ft0, tm0) ->
              - TIME_INF <= ft0 <= TIME_INF).
    { intros c0 st0 ft0 tm0. unfold jfind. eapply jrunner_range; eauto. }
    unfold step, build_step.
    destruct (run_contractor_search _ cs (spec n)) as [[[[st ft] ct] team]| |] eqn:Es.
    - apply contractor_search_best in Es; [|exact HRg]. destruct Es as (Ein & Er & Eft & _).
      destruct (jrunner_ok B sd s n c ct Hi HB Hb Ein Hc Hinf) as (st' & ft' & tm' & R & R').
      rewrite R in Er. injection Er as -> -> ->.
      destruct R' as [[_ ->]|(t & -> & Hw & Hed & R1 & R2)]; [discriminate|].
      set (st1 := if is_first then apt else st).
      assert (H1 : 0 <= st1 <= B) by (unfold st1; destruct is_first; lia).
      assert (E2 : (if is_last then tmax st1 0 else st1) = st1) by (destruct is_last; [rewrite tmax_spec; lia|reflexivity]).
      rewrite E2. clearbody st1.
      unfold jit_schedule. rewrite Hc, Hnotime.
      destruct (chain_linked g n c Hsingle Hlags Hp Hc) as (r & -> & Hlk).
      destruct (jit_place_total g est (to_workers t) (ct_id ct) n r st1 None sd Hp Hlk) as (fin & sd' & Epl). rewrite Epl.
      destruct HD as [HD0 HD1], HL as [HL0 HL1]. destruct HB as [HB1 HB2].
      destruct (jit_place_le g est D Lg Hest HL0 HL1 _ _ _ _ _ _ _ B Hed HD0 H1 ltac:(nia) HB1 Epl) as [P1 P2].
      destruct (jit_update_spec p (sp_independent (spec n)) fin 0 t s Hi Hw) as (s1 & U1 & _). rewrite U1.
      split; [exact P2|]. eapply jit_update_times; [exact P1| |exact U1].
      intros a q x Ha Hx. specialize (HB2 a q x Ha Hx). nia.
    - intros ct Hct Hen. assert (Hf : In ct (filter_contractors (spec n) cs)).
      { unfold filter_contractors. apply filter_In. split; [exact Hct|]. unfold contractor_enabled.
        destruct (sp_contractors (spec n)) as [|x l] eqn:El; [reflexivity|].
        destruct Hen as [Hen|Hen]; [discriminate|]. apply existsb_exists. exists (ct_id ct). split; [exact Hen|apply Nat.eqb_refl]. }
      destruct (jrunner_ok B sd s n c ct Hi HB Hb Hf Hc Hinf) as (st & ft & tm & R & R').
      destruct R' as [[Hnone _]|(t & -> & Hw & Hed & R1 & R2)]; [apply (borders_able' cs); assumption|].
      exfalso. destruct (contractor_search_exists _ _ HRg cs (spec n) HR) as [r Hr]; [|congruence].
      exists ct, st, ft, (to_workers t). split; [exact Hf|]. split; [exact R|]. unfold is_inf. inf. lia.
    - eapply contractor_search_not_crash; eauto.
  Qed.

  Lemma jloop_safe_from B0 : apt <= B0 -> forall nodes is_first chains rest sd s h,
    jsinv g cs spec chains sd s h ->
    (is_first = true -> sd = [] /\ (s = jit_init p \/ forall n, hd_error nodes = Some n -> reqs_of g n = [])) -> (is_first = false -> sd <> []) ->
    jbelow (B0 + Z.of_nat (length (concat chains)) * (D + Lg)) sd s ->
    chains_of g nodes = Some rest -> (forall n, In n nodes -> inseparable_parent g n = None) ->
    2 * (B0 + Z.of_nat (length (concat (chains ++ rest))) * (D + Lg)) < TIME_INF ->
    NoDup (concat (chains ++ rest)) ->
    match loop is_first apt nodes sd s with
    | Crash => False
    | NoContractor => exists n, In n nodes /\
         forall ct, In ct cs -> (sp_contractors (spec n) = [] \/ In (ct_id ct) (sp_contractors (spec n))) ->
                    ~ able ct (reqs_of g n)
    | Done (sd', s') => jbelow (B0 + Z.of_nat (length (concat (chains ++ rest))) * (D + Lg)) sd' s'
    end.
  Proof.
    intros HB0. induction nodes as [|n nodes IH]; intros is_first chains rest sd s h HI Hf Hnf HB Hch Hpar Hinf Hnd.
    { cbn [chains_of] in Hch. injection Hch as <-. rewrite app_nil_r. exact HB. }
    cbn [chains_of] in Hch. destruct (chain_of g n) as [c|] eqn:Ec; [|discriminate].
    destruct (chains_of g nodes) as [rest'|] eqn:Er; [|discriminate]. injection Hch as <-.
    unfold loop. cbn [build_loop]. fold loop. fold step.
    assert (Eapp : chains ++ c :: rest' = (chains ++ [c]) ++ rest') by (rewrite <- app_assoc; reflexivity).
    rewrite Eapp in *.
    assert (Hlc : (1 <= length c)%nat) by (destruct (chain_head _ _ _ Ec) as [r ->]; simpl; lia).
    assert (Hcat : length (concat (chains ++ [c])) = (length (concat chains) + length c)%nat).
    { rewrite concat_app, app_length. simpl. rewrite app_nil_r. reflexivity. }
    set (is_last := match nodes with [] => true | _ => false end).
    assert (Hle : Z.of_nat (length (concat (chains ++ [c]))) <= Z.of_nat (length (concat ((chains ++ [c]) ++ rest')))).
    { rewrite (concat_app (chains ++ [c])), app_length. lia. }
    assert (HD0 := proj1 HD). assert (HL0 := proj1 HL).
    assert (Hs := jstep_safe (B0 + Z.of_nat (length (concat chains)) * (D + Lg)) is_first is_last sd s n c
      (j_inv _ _ _ _ _ _ _ HI) HB ltac:(nia) (Hpar n (or_introl eq_refl)) Ec ltac:(rewrite Hcat in Hle; nia)).
    destruct (step is_first is_last apt n sd s) as [[sd1 s1]| |] eqn:Es.
    - rewrite concat_app in Hnd.
      assert (HI1 := jstep_inv_from g est optimize cs spec apt Hcs Hest Hopt Hreqs Hvol Hspec Hfit Hapt
        _ _ _ _ _ _ _ _ _ _ HI (fun E => match Hf E with conj A B => conj A (match B with or_introl X => or_introl X | or_intror X => or_intror (X n eq_refl) end) end) Hnf Ec (nodup_app_l _ _ Hnd) Es).
      destruct HI1 as (Hne & (h1 & HI1 & _) & _).
      assert (R := IH false (chains ++ [c]) rest' sd1 s1 h1 HI1 ltac:(discriminate) ltac:(auto)).
      assert (HB1 : jbelow (B0 + Z.of_nat (length (concat (chains ++ [c]))) * (D + Lg)) sd1 s1).
      { rewrite Hcat. replace (B0 + Z.of_nat (length (concat chains) + length c) * (D + Lg))
          with (B0 + Z.of_nat (length (concat chains)) * (D + Lg) + Z.of_nat (length c) * (D + Lg)) by lia. exact Hs. }
      rewrite <- concat_app in Hnd.
      specialize (R HB1 eq_refl (fun m Hm => Hpar m (or_intror Hm)) Hinf Hnd).
      destruct (loop false apt nodes sd1 s1); [exact R| |exact R].
      destruct R as (m & Hm & R). exists m. split; [right; exact Hm|exact R].
    - exists n. split; [left; reflexivity|exact Hs].
    - exact Hs.
  Qed.

  Lemma jloop_safe : forall nodes is_first chains rest sd s h,
    jsinv g cs spec chains sd s h ->
    (is_first = true -> sd = [] /\ s = jit_init p) -> (is_first = false -> sd <> []) ->
    jbelow (apt + Z.of_nat (length (concat chains)) * (D + Lg)) sd s ->
    chains_of g nodes = Some rest -> (forall n, In n nodes -> inseparable_parent g n = None) ->
    2 * (apt + Z.of_nat (length (concat (chains ++ rest))) * (D + Lg)) < TIME_INF ->
    NoDup (concat (chains ++ rest)) ->
    match loop is_first apt nodes sd s with
    | Crash => False
    | NoContractor => exists n, In n nodes /\
         forall ct, In ct cs -> (sp_contractors (spec n) = [] \/ In (ct_id ct) (sp_contractors (spec n))) ->
                    ~ able ct (reqs_of g n)
    | Done _ => True
    end.
  Proof.
    intros nodes is_first chains rest sd s h HI Hf Hnf HB Hch Hpar Hinf Hnd.
    assert (H := jloop_safe_from apt (Z.le_refl _) nodes is_first chains rest sd s h HI
      (fun E => match Hf E with conj A B => conj A (or_introl B) end) Hnf HB Hch Hpar Hinf Hnd).
    destruct (loop is_first apt nodes sd s); auto.
  Qed.
End JitSafe.

Lemma jit_build_never_crashes : forall g est optimize cs spec apt D Lg nodes chains,
    contractors_ok cs -> estimator_ok est ->
    (forall n c sd s, optimizer_ok (optimize n c sd s)) ->
    optimizer_answers (jit_find g est) optimize (reqs_of g) cs spec apt ->
    (forall n, reqs_ok (reqs_of g n)) -> (forall n, 0 <= volume_of g n) -> (forall n, spec_ok (spec n)) ->
    (forall n, spec_fits cs (reqs_of g n) (spec n)) ->
    0 <= apt <= TIME_INF ->
    single_inseparable_parent g -> inseparable_lags_ok g ->
    chains_of g nodes = Some chains -> NoDup (concat chains) ->
    (forall n, In n nodes -> inseparable_parent g n = None) ->
    (0 <= D /\ estimates_bounded g est cs spec D) -> (0 <= Lg /\ forall e, In e (g_edges g) -> e_lag e <= Lg) ->
    2 * (apt + Z.of_nat (length (concat chains)) * (D + Lg)) < TIME_INF ->
    (forall n, sp_time (spec n) = None) ->
    match jit_build g est optimize cs spec apt nodes with
    | Crash => False
    | NoContractor => exists n, In n nodes /\
         forall ct, In ct cs -> (sp_contractors (spec n) = [] \/ In (ct_id ct) (sp_contractors (spec n))) ->
                    ~ able ct (reqs_of g n)
    | Done _ => True
    end.
Proof.
  intros g est optimize cs spec apt D Lg nodes chains Hcs Hest Hopt Hans Hreqs Hvol Hspec Hfit Hapt Hsi Hla Hch Hnd Hpar HD HL Hinf Hnt.
  unfold jit_build.
  apply (jloop_safe g est optimize cs spec apt D Lg Hcs Hest Hopt Hans Hreqs Hvol Hspec Hfit Hapt Hsi Hla HD HL Hnt
    nodes true [] chains [] (jit_init (pool_of cs)) []); auto.
  - destruct (jit_init_inv _ (pool_of_ok cs Hcs)) as [I1 I2].
    constructor; [reflexivity|exact I1|exact I2|apply jit_init_times; inf; lia| | | | |]; try (intros; contradiction).
    + intros a t. cbn. lia.
    + intros l1 v w l2 E. destruct l1; discriminate.
  - discriminate.
  - split; [intros n w []|]. apply jit_init_times. simpl. lia.
Qed.
