(** Properties C80, C81: the cyclic hybrid scheduler. *)
From Coq Require Import ZArith List Bool Lia Arith Permutation ZifyBool ZifyNat.
From Verif Require Import TimeModel MomentumModel JITModel MomentumSpec GraphModel ScheduleModel ScheduleSpec TeamProofs ScheduleInv ScheduleTheorems Digraph TopoModel TopoProofs TopoTheorems
  TraverseModel ValidationModel OrderModel OrderTheorems HeadModel HeadProofs HeadTheorems GeneticModel GeneticResModel PriorityModel PipelineModel PipelineTheorems
  SgsModel SgsSpec SgsSerial SgsRound SgsTheorems SgsParallel SgsParallelTheorems GaModel GaProofs GaTheorems GaSchedModel GaSchedSpec GaSchedProofs GaSchedSerial GaSchedTheorems
  GaSchedParallel GaSchedParallelTheorems HybridModel.
Import ListNotations.
Local Open Scope Z_scope.

(** What is asked of a scheduler of the cycle: from individuals it makes individuals, and
    none of the given ones is better than all of the new ones. *)
Definition never_worse {C} (fit : C -> option (list Z)) (valid : C -> Prop) (s : list C -> option (list C)) : Prop :=
  forall pop, pop <> [] -> Forall valid pop ->
    exists pop', s pop = Some pop' /\ pop' <> [] /\ Forall valid pop' /\
      forall c u, In c pop -> fit c = Some [u] -> exists c' u', In c' pop' /\ fit c' = Some [u'] /\ u' <= u.

Section Facts.
  Context {C : Type}.
  Variable fit : C -> option (list Z).
  Variable valid : C -> Prop.
  Hypothesis fit_ok : forall c, valid c -> exists v, fit c = Some [v] /\ 0 <= v.

  Lemma compute_single pop : Forall valid pop ->
    exists vs, compute fit pop = Some (map (fun v => [v]) vs) /\ Forall2 (fun c v => fit c = Some [v] /\ 0 <= v) pop vs.
  Proof.
    unfold compute. induction 1 as [|c pop Hc _ (vs & E & F)]; [exists []; split; [reflexivity|constructor]|].
    destruct (fit_ok c Hc) as (v & Ev & Hv). exists (v :: vs). simpl. rewrite Ev. simpl in E. rewrite E. split; [reflexivity|constructor; auto].
  Qed.
  Lemma least_single : forall vs b, exists m, least [b] (map (fun v => [v]) vs) = [m] /\ (m = b \/ In m vs) /\ m <= b /\ (forall v, In v vs -> m <= v).
  Proof.
    induction vs as [|v vs IH]; intros b; cbn [map least]; [exists b; repeat split; auto; [lia|intros v []]|].
    destruct (lex_lt [v] [b]) eqn:E; simpl in E.
    - destruct (Z.ltb_spec v b); [|destruct (b <? v); discriminate]. destruct (IH v) as (m & E1 & D & L & A). exists m. split; [exact E1|].
      split; [right; destruct D as [->|D]; [left; reflexivity|right; exact D]|]. split; [lia|]. intros w [<-|Hw]; auto.
    - destruct (Z.ltb_spec v b); [discriminate|]. destruct (IH b) as (m & E1 & D & L & A). exists m. split; [exact E1|].
      split; [destruct D as [->|D]; [left; reflexivity|right; right; exact D]|]. split; [lia|]. intros w [<-|Hw]; [lia|auto].
  Qed.
  Lemma argmin_from_spec : forall l done best at_,
    nth_error done at_ = Some best -> (forall x, In x done -> best <= x) ->
    exists m, nth_error (done ++ l) (argmin_from best at_ (length done) l) = Some m /\ forall x, In x (done ++ l) -> m <= x.
  Proof.
    induction l as [|x l IH]; intros done best at_ Hn Hb; cbn [argmin_from].
    - exists best. rewrite app_nil_r. auto.
    - assert (E : S (length done) = length (done ++ [x])) by (rewrite app_length; simpl; lia).
      replace (done ++ x :: l) with ((done ++ [x]) ++ l) by (rewrite <- app_assoc; reflexivity).
      destruct (Z.ltb_spec x best); rewrite E; apply IH.
      + rewrite nth_error_app2, Nat.sub_diag by lia. reflexivity.
      + intros y Hy. apply in_app_or in Hy as [Hy|[<-|[]]]; [specialize (Hb y Hy)|]; lia.
      + rewrite nth_error_app1; [exact Hn|]. apply nth_error_Some. congruence.
      + intros y Hy. apply in_app_or in Hy as [Hy|[<-|[]]]; [apply Hb; exact Hy|lia].
  Qed.
  Lemma concat_singles (vs : list Z) : concat (map (fun v => [v]) vs) = vs.
  Proof. induction vs as [|v vs IH]; simpl; congruence. Qed.

  Definition best_is (pop : list C) (m : Z) : Prop :=
    0 <= m /\ (exists c, In c pop /\ fit c = Some [m]) /\ forall c u, In c pop -> fit c = Some [u] -> m <= u.
  Lemma best_unique pop m m' : best_is pop m -> best_is pop m' -> m = m'.
  Proof. intros (_ & (c & Hc & Ec) & A) (_ & (c' & Hc' & Ec') & A'). assert (m <= m') by eauto. assert (m' <= m) by eauto. lia. Qed.
  Lemma fits_of pop vs : Forall2 (fun c v => fit c = Some [v] /\ 0 <= v) pop vs ->
    (forall v, In v vs -> exists c, In c pop /\ fit c = Some [v] /\ 0 <= v) /\ (forall c, In c pop -> exists v, In v vs /\ fit c = Some [v]).
  Proof.
    induction 1 as [|c v pop vs [E1 E2] _ [IH1 IH2]]; [split; intros ? []|]. split.
    - intros w [<-|Hw]; [exists c; simpl; auto|]. destruct (IH1 w Hw) as (c' & ? & ?). exists c'. simpl. auto.
    - intros w [<-|Hw]; [exists v; simpl; auto|]. destruct (IH2 w Hw) as (c' & ? & ?). exists c'. simpl. auto.
  Qed.
  Lemma population_fitness_spec pop : pop <> [] -> Forall valid pop ->
    exists m, population_fitness fit pop = Some [m] /\ best_is pop m.
  Proof.
    intros Hne V. destruct (compute_single pop V) as (vs & E & F). unfold population_fitness. rewrite E.
    destruct (fits_of pop vs F) as [F1 F2].
    destruct vs as [|v vs]; [inversion F; subst; congruence|]. cbn [map min_tuple].
    destruct (least_single vs v) as (m & -> & D & L & A). exists m. split; [reflexivity|].
    assert (Hm : In m (v :: vs)) by (destruct D as [->|D]; [left; reflexivity|right; exact D]).
    destruct (F1 m Hm) as (c & Hc & Ec & H0). split; [exact H0|]. split; [eauto|].
    intros c' u Hc' Eu. destruct (F2 c' Hc') as (u' & Hu & Eu'). assert (u' = u) by congruence. subst u'.
    destruct Hu as [<-|Hu]; [exact L|auto].
  Qed.
  Lemma best_individual_spec pop : pop <> [] -> Forall valid pop ->
    exists c m, best_individual fit pop = Some c /\ In c pop /\ fit c = Some [m] /\ best_is pop m.
  Proof.
    intros Hne V. destruct (compute_single pop V) as (vs & E & F). unfold best_individual. rewrite E, concat_singles.
    destruct (fits_of pop vs F) as [F1 F2].
    destruct vs as [|v vs]; [inversion F; subst; congruence|]. cbn [argmin].
    destruct (argmin_from_spec vs [v] v 0 eq_refl) as (m & Hn & A); [intros x [<-|[]]; lia|].
    cbn [length app] in Hn, A.
    assert (Hat : forall i l l' (w : Z), Forall2 (fun c v => fit c = Some [v] /\ 0 <= v) l l' -> nth_error l' i = Some w ->
       exists c, nth_error l i = Some c /\ fit c = Some [w] /\ 0 <= w).
    { induction i as [|i IH]; intros l l' w Hl Hw; inversion Hl as [|a b la lb Hab Hr]; subst; try discriminate; simpl in *.
      - injection Hw as ->. exists a. destruct Hab. auto.
      - eauto. }
    destruct (Hat _ _ _ _ F Hn) as (c & Ec & Ef & H0). exists c, m. split; [exact Ec|]. assert (Hc := nth_error_In _ _ Ec).
    split; [exact Hc|]. split; [exact Ef|]. split; [exact H0|]. split; [eauto|].
    intros c' u Hc' Eu. destruct (F2 c' Hc') as (u' & Hu & Eu'). assert (u' = u) by congruence. subst u'. apply A, Hu.
  Qed.
  Lemma run_schedulers_ok l : (forall s, In s l -> never_worse fit valid s) -> never_worse fit valid (run_schedulers l).
  Proof.
    induction l as [|s l IH]; intros Hl pop Hne V; cbn [run_schedulers].
    - exists pop. repeat split; auto. intros c u Hc Hu. exists c, u. repeat split; auto. lia.
    - destruct (Hl s (or_introl eq_refl) pop Hne V) as (p1 & -> & N1 & V1 & B1).
      destruct (IH (fun x Hx => Hl x (or_intror Hx)) p1 N1 V1) as (p2 & -> & N2 & V2 & B2).
      exists p2. repeat split; auto. intros c u Hc Hu. destruct (B1 c u Hc Hu) as (c1 & u1 & I1 & E1 & L1).
      destruct (B2 c1 u1 I1 E1) as (c2 & u2 & I2 & E2 & L2). exists c2, u2. repeat split; auto. lia.
  Qed.

  Variable schedulers : nat -> list (list C -> option (list C)).
  Hypothesis schedulers_ok : forall round s, In s (schedulers round) -> never_worse fit valid s.
  Variable mp : nat.
  Lemma step_best round pop m : pop <> [] -> Forall valid pop -> best_is pop m ->
    exists pop' m', run_schedulers (schedulers round) pop = Some pop' /\ pop' <> [] /\ Forall valid pop' /\ best_is pop' m' /\ m' <= m.
  Proof.
    intros Hne V (_ & (c & Hc & Ec) & _). destruct (run_schedulers_ok _ (schedulers_ok round) pop Hne V) as (pop' & E & N & V' & B).
    destruct (population_fitness_spec pop' N V') as (m' & _ & Hm'). exists pop', m'. repeat split; auto; try apply Hm'.
    destruct (B c m Hc Ec) as (c' & u' & I & Eu & L). assert (m' <= u') by (eapply Hm'; eauto). lia.
  Qed.
  Lemma loop_ends : forall left round cur pl pop m,
    pop <> [] -> Forall valid pop -> best_is pop m ->
    match cur with Some v => exists k, v = [k] /\ m <= k /\ (pl < mp)%nat /\ k * Z.of_nat mp + Z.of_nat (mp - pl) <= Z.of_nat left
                 | None => (0 < mp)%nat /\ 1 + m * Z.of_nat mp + Z.of_nat mp <= Z.of_nat left end ->
    exists c r v, cycle_loop fit schedulers mp left round cur pl pop = Ended c r /\ valid c /\ fit c = Some [v] /\ v <= m /\ (r < round + left)%nat.
  Proof.
    induction left as [|left IH]; intros round cur pl pop m Hne V Hm Hc.
    { exfalso. assert (H0 : 0 <= m) by apply Hm. destruct cur as [v|].
      - destruct Hc as (k & -> & L & Hp & H). assert (0 <= k * Z.of_nat mp) by nia. lia.
      - destruct Hc as [Hp H]. nia. }
    cbn [cycle_loop]. destruct (population_fitness_spec pop Hne V) as (m' & -> & Hm').
    assert (m' = m) by (eapply best_unique; eauto). subst m'. clear Hm'.
    assert (H0 : 0 <= m) by apply Hm.
    destruct (step_best round pop m Hne V Hm) as (pop' & m' & Er & N' & V' & Hm' & Lm).
    assert (Hgo : forall pl', (pl' < mp)%nat -> m * Z.of_nat mp + Z.of_nat (mp - pl') <= Z.of_nat left ->
      exists c r v, match run_schedulers (schedulers round) pop with None => Raised | Some pop' => cycle_loop fit schedulers mp left (S round) (Some [m]) pl' pop' end = Ended c r /\
        valid c /\ fit c = Some [v] /\ v <= m /\ (r < round + S left)%nat).
    { intros pl' Hp Hl. rewrite Er. destruct (IH (S round) (Some [m]) pl' pop' m' N' V' Hm') as (c & r & v & E & Vc & Ev & L & R).
      - exists m. auto.
      - exists c, r, v. repeat split; auto; lia. }
    destruct cur as [v|].
    - destruct Hc as (k & -> & Lk & Hp & H). cbn [lists_eqb]. rewrite andb_true_r. destruct (Z.eqb_spec m k) as [Ek|Nk].
      + subst k. cbn [andb]. destruct (Nat.eqb_spec (S pl) mp) as [Ep|Np].
        * destruct (best_individual_spec pop Hne V) as (c & m2 & -> & Ic & Ef & Hb). assert (m2 = m) by (eapply best_unique; eauto). subst m2.
          exists c, round, m. rewrite Forall_forall in V. split; [reflexivity|]. split; [auto|]. split; [exact Ef|]. lia.
        * apply Hgo; lia.
      + cbn [andb]. apply Hgo; [lia|]. nia.
    - destruct Hc as [Hp H]. cbn [andb]. apply Hgo; [lia|]. rewrite Nat.sub_0_r. lia.
  Qed.
End Facts.

Lemma loop_more {C} (fit : C -> option (list Z)) schedulers mp c r k : forall left round cur pl pop,
  cycle_loop fit schedulers mp left round cur pl pop = Ended c r -> cycle_loop fit schedulers mp (left + k) round cur pl pop = Ended c r.
Proof.
  induction left as [|left IH]; intros round cur pl pop; cbn [cycle_loop Nat.add]; [discriminate|].
  destruct (population_fitness fit pop); [|discriminate]. cbv zeta. destruct (_ && _); [auto|].
  destruct (run_schedulers _ _); [apply IH|discriminate].
Qed.

(** C80. With schedulers in the cycle that never lose the best individual, and one objective
    that is not negative, the hybrid scheduler always ends: after at most so many rounds
    for each value that the best one can fall to. Its answer is at least as good as every
    individual of the starting population. *)
Theorem hybrid_no_worse :
  forall C (fit : C -> option (list Z)) (valid : C -> Prop) schedulers max_plateau pop c0 b,
    (forall c, valid c -> exists v, fit c = Some [v] /\ 0 <= v) ->
    (forall round s, In s (schedulers round) -> never_worse fit valid s) ->
    (0 < max_plateau)%nat -> Forall valid pop -> In c0 pop -> fit c0 = Some [b] ->
    exists c r v, (forall rounds, ((Z.to_nat b + 1) * max_plateau + 1 <= rounds)%nat -> cycle_run fit schedulers max_plateau rounds pop = Ended c r) /\
      valid c /\ fit c = Some [v] /\ (forall c' u, In c' pop -> fit c' = Some [u] -> v <= u) /\ (r <= (Z.to_nat b + 1) * max_plateau)%nat.
Proof.
  intros C fit valid schedulers mp pop c0 b Hf Hs Hmp V I0 E0.
  assert (Hne : pop <> []) by (intros ->; destruct I0).
  destruct (population_fitness_spec fit valid Hf pop Hne V) as (m & _ & Hm).
  assert (Lb : m <= b) by (eapply Hm; eauto). assert (H0 : 0 <= m) by apply Hm.
  set (n := ((Z.to_nat b + 1) * mp + 1)%nat).
  destruct (loop_ends fit valid Hf schedulers Hs mp n 0%nat None 0%nat pop m Hne V Hm) as (c & r & v & E & Vc & Ev & L & R).
  { split; [exact Hmp|]. unfold n. rewrite Nat2Z.inj_add, Nat2Z.inj_mul, Nat2Z.inj_add, Z2Nat.id by lia. nia. }
  exists c, r, v. split.
  - intros rounds Hr. replace rounds with (n + (rounds - n))%nat by lia. apply loop_more. exact E.
  - split; [exact Vc|]. split; [exact Ev|]. split; [|unfold n in R; lia].
    intros c' u Hc' Hu. assert (m <= u) by (eapply Hm; eauto). lia.
Qed.
Print Assumptions hybrid_no_worse.

(** ** Genetic schedulers in the cycle *)
Lemma upgrade_never_worse {C} (shuffle : nat -> nat -> list (individual C) -> list (individual C)) offspring timeout nsga2 size (fit : C -> option (list Z)) (valid : C -> Prop) opt mp number :
  (forall s k l, Permutation (shuffle s k l) l) -> (forall s k l, incl (nsga2 s k l) l) -> (0 < size)%nat ->
  (forall c v, fit c = Some v -> length v = 1%nat) ->
  (forall s k cs, Forall valid cs -> exists cs', offspring s k opt cs = Some cs' /\ Forall valid cs') ->
  (forall c, valid c -> exists v, fit c = Some v) ->
  never_worse fit valid (upgrade_pop shuffle offspring timeout nsga2 false size [-1] fit opt mp number).
Proof.
  intros Hs Hn Hsize Hf Ho Hv pop Hne V.
  destruct (search_total shuffle offspring timeout nsga2 false size Hs Hn [-1] fit Hf valid opt Ho Hv (fun _ _ => false) mp number pop V Hne)
    as (st & E & G & _ & _).
  destruct (first_stage_spec shuffle offspring timeout nsga2 false size Hs Hn [-1] fit Hf _ _ _ _ _ _ E) as ((_ & _ & A3 & A4 & _ & _) & B & K).
  destruct (K eq_refl eq_refl Hsize) as (m & M1 & M2).
  unfold upgrade_pop, genetic_search. rewrite E. exists (map i_ch (st_pop st)). split; [reflexivity|].
  split; [destruct (st_pop st); [destruct M1|discriminate]|]. split.
  { apply Forall_forall. intros c Hc. apply in_map_iff in Hc as (x & <- & Hx). apply G, A3, Hx. }
  intros c u Hc Hu. destruct (B c Hc) as (x & Hx & <- & _).
  assert (Hm := A4 m (A3 m M1)). assert (Hxm := A4 x Hx). unfold measured in Hm, Hxm.
  rewrite Hxm in Hu. injection Hu as Hu. assert (Lm := Hf _ _ Hm). destruct (i_values m) as [|v [|]] eqn:Ev; simpl in Lm; try lia.
  exists (i_ch m), v. split; [apply in_map; exact M1|]. split; [exact Hm|].
  assert (Hnw := M2 x Hx). apply nw_no_worse in Hnw; [|unfold sized; rewrite Ev; reflexivity|unfold sized; rewrite Hu; reflexivity].
  assert (H := Hnw O (-1) v u). rewrite Ev, Hu in H. specialize (H eq_refl eq_refl eq_refl). lia.
Qed.

(** The genetic schedulers of the cycle: each with its own random answers, sizes and limits. *)
Definition genetic_scheduler (g : graph) (cs : list contractor) (tb : toolbox) (decode : chromosome -> option sched) (listing : list nat -> list nat)
           (worst : Z) (optimize : bool) (s : list chromosome -> option (list chromosome)) : Prop :=
  exists shuffle draw timeout nsga2 size max_plateau number,
    (forall s k l, Permutation (shuffle s k l) l) /\ (forall s k l, incl (nsga2 s k l) l) /\ (forall s k, draws_ok (draw s k)) /\ (0 < size)%nat /\
    s = upgrade_pop shuffle (fun s gen o pop => make_offspring tb (draw s gen) o pop) timeout nsga2 false size [-1]
          (evaluate_with g cs tb decode listing time_fitness [worst]) optimize max_plateau number.

Lemma hybrid_time_no_worse g works est cs spec prio apt opt tb listing decode (good : sched -> Prop) worst schedulers mp init :
  genetic_inputs g works est cs spec apt opt -> prepare g works cs spec prio = Some tb -> (forall l, Permutation (listing l) l) ->
  (forall sd, good sd -> Permutation (map fst sd) works) ->
  (forall ch, valid g spec tb opt ch -> exists sd, decode ch = Some sd /\ good sd) ->
  (forall sd, good sd -> exists rows t, schedule_rows listing g (rev sd) = Ends rows /\ time_fitness rows = [t] /\ latest_finish sd t) ->
  (forall sd n w, good sd -> In (n, w) sd -> 0 <= sw_start w <= sw_finish w /\ sw_finish w <= TIME_INF) ->
  (forall round s, In s (schedulers round) -> genetic_scheduler g cs tb decode listing worst opt s) -> (0 < mp)%nat ->
  init <> [] -> Forall (individual_ok g cs spec prio (tb_nodes tb) (tb_cborders tb) opt) init ->
  exists ch r sd t enough, (forall rounds, (enough <= rounds)%nat ->
      cycle_run (evaluate_with g cs tb decode listing time_fitness [worst]) schedulers mp rounds init = Ended ch r) /\
    decode ch = Some sd /\ good sd /\ latest_finish sd t /\
    forall c, In c init -> exists sd0 t0, decode c = Some sd0 /\ latest_finish sd0 t0 /\ t <= t0.
Proof.
  intros Hin Hp Hl Hgw Hdec Htime Hpos Hsch Hmp Hne Hi.
  assert (Htb := prepare_ok _ _ _ _ _ _ (gi_graph _ _ _ _ _ _ _ Hin) Hp).
  destruct (inputs_parts _ _ _ _ _ _ _ Hin) as (_ & _ & H3 & _).
  set (fit := evaluate_with g cs tb decode listing time_fitness [worst]) in *.
  assert (Hfit : forall c, valid g spec tb opt c -> exists sd t, decode c = Some sd /\ good sd /\ latest_finish sd t /\ fit c = Some [t]).
  { intros c V. destruct (evaluate_ok g works est cs spec prio apt opt tb listing Hin Hp Hl decode good Hgw Hdec time_fitness [worst] c V)
      as (sd & rows & E1 & E2 & E4 & E5).
    destruct (Htime sd E2) as (rows' & t & E6 & E7 & E8).
    assert (rows' = rows) by congruence. subst rows'. exists sd, t. split; [exact E1|]. split; [exact E2|]. split; [exact E8|]. unfold fit. rewrite E5, E7. reflexivity. }
  assert (Hfit0 : forall c, valid g spec tb opt c -> exists v, fit c = Some [v] /\ 0 <= v).
  { intros c V. destruct (Hfit c V) as (sd & t & _ & G & (_ & n & w & Hw & <-) & E). exists (sw_finish w). split; [exact E|]. destruct (Hpos sd n w G Hw). lia. }
  assert (Vi : Forall (valid g spec tb opt) init) by (eapply Forall_impl; [|exact Hi]; intros ch; apply (ok_valid g works est cs spec prio apt opt tb Hin Hp)).
  assert (Hsz : forall c v, fit c = Some v -> length v = 1%nat).
  { intros c u. unfold fit, evaluate_with. destruct (validate cs tb c); [|intros [= <-]; reflexivity].
    destruct (decode c) as [sd|]; [|discriminate]. destruct (schedule_rows listing g (rev sd)); [|discriminate]. intros [= <-]. reflexivity. }
  assert (Hx : exists c0, In c0 init) by (clear - Hne; destruct init as [|c0 l]; [congruence|exists c0; left; reflexivity]). destruct Hx as [c0 I0].
  rewrite Forall_forall in Vi. destruct (Hfit0 c0 (Vi c0 I0)) as (b & Eb & _).
  destruct (hybrid_no_worse _ fit (valid g spec tb opt) schedulers mp init c0 b Hfit0) as (c & r & v & E & Vc & Ev & B & _); auto.
  - intros round s Hs. destruct (Hsch round s Hs) as (shuffle & draw & timeout & nsga2 & size & mp' & number & S1 & S2 & S3 & S4 & ->).
    apply upgrade_never_worse; auto.
    + intros s k l V. destruct (make_offspring_valid g works cs spec prio tb Htb H3 (nodes_nonempty g works est cs spec prio apt opt tb Hin Hp) (draw s k) opt l (S3 s k) V)
        as (l' & E' & V' & _). eauto.
    + intros c V. destruct (Hfit0 c V) as (v & Ev & _). eauto.
  - apply Forall_forall. exact Vi.
  - destruct (Hfit c Vc) as (sd & t & D1 & D2 & D3 & D4). assert (t = v) by congruence. subst v.
    exists c, r, sd, t, ((Z.to_nat b + 1) * mp + 1)%nat. do 4 (split; [assumption|]).
    intros c' Ic'. destruct (Hfit c' (Vi c' Ic')) as (sd' & t' & D1' & _ & D3' & D4'). exists sd', t'. split; [exact D1'|]. split; [exact D3'|]. eauto.
Qed.

(** C81. The hybrid scheduler with genetic schedulers that minimize the time, started from
    individuals, always ends, with a feasible schedule that ends no later than the schedule
    of any individual it was started from; serial scheme. *)
Theorem hybrid_feasible_no_later :
  forall g works est cs spec prio apt optimize tb finish listing worst schedulers max_plateau init,
    genetic_inputs g works est cs spec apt optimize -> prepare g works cs spec prio = Some tb ->
    (forall e, In e (g_edges g) -> 0 <= e_lag e) ->
    In finish works -> (forall n, In n works -> n = finish \/ path (depends_on g) n finish) ->
    (forall l, Permutation (listing l) l) ->
    (forall round s, In s (schedulers round) -> genetic_scheduler g cs tb (serial g est cs tb apt) listing worst optimize s) -> (0 < max_plateau)%nat ->
    init <> [] -> Forall (individual_ok g cs spec prio (tb_nodes tb) (tb_cborders tb) optimize) init ->
    exists ch r sd t enough,
      (forall rounds, (enough <= rounds)%nat ->
         cycle_run (evaluate_with g cs tb (serial g est cs tb apt) listing time_fitness [worst]) schedulers max_plateau rounds init = Ended ch r) /\
      serial g est cs tb apt ch = Some sd /\ feasible g cs spec works sd /\ lags_respected g works sd /\ latest_finish sd t /\
      forall c, In c init -> exists sd0 t0, serial g est cs tb apt c = Some sd0 /\ latest_finish sd0 t0 /\ t <= t0.
Proof.
  intros g works est cs spec prio apt opt tb finish listing worst schedulers mp init Hin Hp Hlag Hfin Hend Hl Hs Hmp Hne Hi.
  assert (Hg := gi_graph _ _ _ _ _ _ _ Hin). assert (Htb := prepare_ok _ _ _ _ _ _ Hg Hp).
  destruct (hybrid_time_no_worse g works est cs spec prio apt opt tb listing (serial g est cs tb apt) (fun sd => feasible g cs spec works sd /\ lags_respected g works sd)
    worst schedulers mp init Hin Hp Hl) as (ch & r & sd & t & N & E1 & E2 & [F L] & Ht & H); try assumption.
  - intros sd [F _]. apply (fs_works _ _ _ _ _ F).
  - intros ch V. destruct (serial_ok g works est cs spec prio apt opt tb Hin Htb ch V) as (sd & start & E & F & L). exists sd. unfold serial. rewrite E. auto.
  - intros sd [F L]. apply (schedule_time g works Hg finish Hfin Hend listing sd Hl (fs_works _ _ _ _ _ F) (fs_times _ _ _ _ _ F)).
    eapply feasible_precedence; eauto.
  - intros sd n w [F _] Hw. apply (fs_times _ _ _ _ _ F n w Hw).
  - exists ch, r, sd, t, N. auto 10.
Qed.
Print Assumptions hybrid_feasible_no_later.

(** C81, parallel scheme. *)
Theorem hybrid_parallel_feasible_no_later :
  forall g works est cs spec prio apt D Lg optimize tb fuel finish listing worst schedulers max_plateau init,
    genetic_inputs g works est cs spec apt optimize -> parallel_inputs g works est cs spec apt D Lg -> prepare g works cs spec prio = Some tb ->
    (iterations g works apt D Lg tb <= fuel)%nat ->
    (forall n, sp_independent (spec n) = false) -> (forall e, In e (g_edges g) -> 0 <= e_lag e) ->
    In finish works -> (forall n, In n works -> n = finish \/ path (depends_on g) n finish) ->
    (forall l, Permutation (listing l) l) ->
    (forall round s, In s (schedulers round) -> genetic_scheduler g cs tb (parallel g est cs tb apt fuel) listing worst optimize s) -> (0 < max_plateau)%nat ->
    init <> [] -> Forall (individual_ok g cs spec prio (tb_nodes tb) (tb_cborders tb) optimize) init ->
    exists ch r sd t enough,
      (forall rounds, (enough <= rounds)%nat ->
         cycle_run (evaluate_with g cs tb (parallel g est cs tb apt fuel) listing time_fitness [worst]) schedulers max_plateau rounds init = Ended ch r) /\
      parallel g est cs tb apt fuel ch = Some sd /\ parallel_feasible g cs spec works sd /\
      (forall e wu wv, In e (g_edges g) -> In (e_from e, wu) sd -> In (e_to e, wv) sd -> tadd (sw_finish wu) (e_lag e) <= sw_start wv) /\
      latest_finish sd t /\
      forall c, In c init -> exists sd0 t0, parallel g est cs tb apt fuel c = Some sd0 /\ latest_finish sd0 t0 /\ t <= t0.
Proof.
  intros g works est cs spec prio apt D Lg opt tb fuel finish listing worst schedulers mp init Hin Hpi Hp Hfu Hind Hlag Hfin Hend Hl Hs Hmp Hne Hi.
  assert (Hg := gi_graph _ _ _ _ _ _ _ Hin). assert (Htb := prepare_ok _ _ _ _ _ _ Hg Hp).
  assert (Hall : forall sd, parallel_feasible g cs spec works sd ->
    forall e wu wv, In e (g_edges g) -> In (e_from e, wu) sd -> In (e_to e, wv) sd -> tadd (sw_finish wu) (e_lag e) <= sw_start wv).
  { intros sd F e wu wv He Hu Hv. destruct (gk_closed _ _ Hg e He) as [_ Hvn].
    destruct (has_head g (graph_chains g works Hg) works (gk_closed _ _ Hg) _ Hvn) as (h & Hh1 & Hh2). apply (pf_lags _ _ _ _ _ F e h wu wv); auto. }
  destruct (hybrid_time_no_worse g works est cs spec prio apt opt tb listing (parallel g est cs tb apt fuel) (parallel_feasible g cs spec works)
    worst schedulers mp init Hin Hp Hl) as (ch & r & sd & t & N & E1 & E2 & F & Ht & H); try assumption.
  - apply pf_works.
  - intros ch V. destruct (parallel_ok g works est cs spec prio apt opt tb D Lg Hin Hpi Htb ch V) as (s & E & F). exists (ps_sched s).
    unfold parallel. rewrite (E fuel Hfu). auto.
  - intros sd F. apply (schedule_time g works Hg finish Hfin Hend listing sd Hl (pf_works _ _ _ _ _ F) (pf_times _ _ _ _ _ F)).
    intros n m v w (e & He & _ & En & Em) Iv Iw. subst n m. assert (G := Hall sd F e v w He Iv Iw).
    destruct (pf_times _ _ _ _ _ F (e_from e) v Iv) as [Hle Hle']. specialize (Hlag e He).
    assert (sw_finish v <= tadd (sw_finish v) (e_lag e)); [|lia]. unfold tadd, set_time. destruct (TIME_INF <? sw_finish v + e_lag e) eqn:E1; [lia|].
    destruct (sw_finish v + e_lag e <? - TIME_INF) eqn:E2; [assert (0 <= TIME_INF) by (vm_compute; discriminate)|]; lia.
  - intros sd n w F Hw. apply (pf_times _ _ _ _ _ F n w Hw).
  - exists ch, r, sd, t, N. split; [exact E1|]. split; [exact E2|]. split; [exact F|]. split; [apply Hall; exact F|]. auto.
Qed.
Print Assumptions hybrid_parallel_feasible_no_later.

(** ** The hypotheses are met: two genetic schedulers in the cycle over the works of
    [sx_graph], started from the schedule of HEFTBetweenScheduler *)
Definition hx_fit (tb : toolbox) := evaluate_with sx_graph sx_contractors tb (serial sx_graph sx_est sx_contractors tb 0) (fun l => l) time_fitness [TIME_INF].
Definition hx_scheduler (tb : toolbox) (number : nat) :=
  upgrade_pop (fun _ _ l => l) (fun s gen o pop => make_offspring tb (gx_draws s gen) o pop) (fun _ _ => false) (fun _ _ l => l) false 2 [-1] (hx_fit tb) true None number.
Lemma hx_scheduler_ok tb number :
  genetic_scheduler sx_graph sx_contractors tb (serial sx_graph sx_est sx_contractors tb 0) (fun l => l) TIME_INF true (hx_scheduler tb number).
Proof.
  exists (fun _ _ l => l), gx_draws, (fun _ _ => false), (fun _ _ l => l), 2%nat, None, number.
  split; [intros; apply Permutation_refl|]. split; [intros s k l x Hx; exact Hx|]. split; [exact gx_draws_ok|]. split; [lia|reflexivity].
Qed.
Definition hx_answer :=
  match gx_toolbox, gx_individual with
  | Some tb, Some c =>
      match cycle_run (hx_fit tb) (fun _ => [hx_scheduler tb 1; hx_scheduler tb 2]) 2 10 [c; c] with
      | Ended c' r => option_map (fun sd => (times sd, r)) (serial sx_graph sx_est sx_contractors tb 0 c')
      | _ => None
      end
  | _, _ => None
  end.
Example hx_values : hx_answer = Some ([(0%nat, 0, 0); (1%nat, 0, 6); (2%nat, 6, 13); (3%nat, 2, 10); (4%nat, 13, 22); (5%nat, 22, 22)], 3%nat).
Proof. vm_compute. reflexivity. Qed.
Example hybrid_hypotheses :
  exists tb c,
    genetic_inputs sx_graph px_nodes sx_est sx_contractors sx_spec 0 true /\ parallel_inputs sx_graph px_nodes sx_est sx_contractors sx_spec 0 15 2 /\
    prepare sx_graph px_nodes sx_contractors sx_spec (fun _ => 1) = Some tb /\ gx_toolbox = Some tb /\ gx_individual = Some c /\
    individual_ok sx_graph sx_contractors sx_spec (fun _ => 1) (tb_nodes tb) (tb_cborders tb) true c /\
    (forall n, In n px_nodes -> n = 5%nat \/ path (depends_on sx_graph) n 5) /\
    (forall s, In s [hx_scheduler tb 1; hx_scheduler tb 2] ->
       genetic_scheduler sx_graph sx_contractors tb (serial sx_graph sx_est sx_contractors tb 0) (fun l => l) TIME_INF true s).
Proof.
  destruct genetic_hypotheses as (G0 & tb & c & sd0 & s0 & _ & _ & _ & _ & G1 & G2 & G3 & G4 & G5 & _).
  exists tb, c. split; [exact G0|]. split; [exact px_parallel_inputs|]. split; [exact G1|]. split; [exact G1|].
  split; [unfold gx_individual, gx_toolbox; rewrite G1; exact G4|]. split; [exact G5|]. split; [exact G3|].
  intros s [<-|[<-|[]]]; apply hx_scheduler_ok.
Qed.

(** ** Findings *)
(** With a plateau of zero the loop never ends, whatever the schedulers do. *)
Theorem hybrid_zero_plateau_never_ends :
  forall C (fit : C -> option (list Z)) schedulers rounds pop c r, cycle_run fit schedulers 0 rounds pop <> Ended c r.
Proof.
  intros C fit schedulers rounds pop c r. unfold cycle_run. generalize 0%nat at 2 as round, (@None (list Z)) as cur, 0%nat at 2 as pl.
  revert pop. induction rounds as [|rounds IH]; intros pop round cur pl; cbn [cycle_loop]; [discriminate|].
  destruct (population_fitness fit pop); [|discriminate]. cbv zeta. cbn [Nat.eqb]. rewrite andb_false_r.
  destruct (run_schedulers _ _); [apply IH|discriminate].
Qed.
Print Assumptions hybrid_zero_plateau_never_ends.
(** With two objectives np.argmin numbers the values, not the individuals: of two
    individuals the worse one in both objectives is answered, and a single one raises. *)
Theorem hybrid_two_objectives_wrong :
  exists (fit : bool -> option (list Z)),
    fit true = Some [4; 1] /\ fit false = Some [5; 9] /\
    cycle_run fit (fun _ => []) 1 3 [true; false] = Ended false 1 /\ cycle_run fit (fun _ => []) 1 3 [true] = Raised.
Proof. exists (fun b : bool => if b then Some [4; 1] else Some [5; 9]). repeat split; vm_compute; reflexivity. Qed.
Print Assumptions hybrid_two_objectives_wrong.
(** A population of heuristic schedules in the cycle replaces what was found before: started
    from an individual of value 5, the answer has value 9. *)
Theorem hybrid_heuristics_forget :
  exists (fit : bool -> option (list Z)),
    fit true = Some [5] /\ fit false = Some [9] /\
    cycle_run fit (fun _ => [heuristic_population [false]]) 1 4 [true] = Ended false 2.
Proof. exists (fun b : bool => if b then Some [5] else Some [9]). repeat split; vm_compute; reflexivity. Qed.
Print Assumptions hybrid_heuristics_forget.
(** A genetic scheduler as the starting one is given an empty population and raises. *)
Theorem hybrid_genetic_start_raises :
  forall C shuffle offspring timeout nsga2 multi size weights (fit : C -> option (list Z)) optimize max_plateau number,
    upgrade_pop shuffle offspring timeout nsga2 multi size weights fit optimize max_plateau number [] = None.
Proof. reflexivity. Qed.
Print Assumptions hybrid_genetic_start_raises.
