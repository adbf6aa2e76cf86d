From Coq Require Import ZArith List Bool Lia Arith ZifyBool ZifyNat.
From Verif Require Import TimeModel TimeProofs MomentumModel JITModel MomentumSpec MomentumHistory MomentumProofs MomentumTeamProofs
  GraphModel ScheduleModel ScheduleSpec TeamProofs ContractorProofs ContractorTheorems ScheduleProofs ScheduleInv SchedulePoolProofs ScheduleSafe SgsModel SgsSpec SgsSerial.
Import ListNotations.
Local Open Scope Z_scope.

(** ** Schedules that differ in the contractors of works without workers *)
Definition like := Forall2 same_but_idle.
Lemma like_get sd sd' n : like sd sd' ->
  match sd_get sd n, sd_get sd' n with
  | Some w, Some w' => sw_finish w = sw_finish w'
  | None, None => True
  | _, _ => False
  end.
Proof.
  induction 1 as [|[m w] [m' w'] sd sd' (H1 & _ & H2 & _) _ IH]; simpl in *; [exact I|]. subst m'.
  destruct (Nat.eqb m n); [exact H2|exact IH].
Qed.
Lemma like_min_start g sd sd' n : like sd sd' -> min_start_time g sd n = min_start_time g sd' n.
Proof.
  intros H. unfold min_start_time. f_equal. induction (edges_to g n) as [|e l IH]; [reflexivity|]. simpl.
  assert (G := like_get _ _ (e_from e) H). destruct (sd_get sd _), (sd_get sd' _); try contradiction; congruence.
Qed.
Lemma like_bound g sd sd' asg apt n : like sd sd' -> parent_bound g sd asg apt n = parent_bound g sd' asg apt n.
Proof. intros H. unfold parent_bound. rewrite (like_min_start g _ _ n H). reflexivity. Qed.
Lemma chain_exec_ext g est b b' base team : (forall n, b n = b' n) -> forall chain exec,
  chain_exec g est b base team exec chain = chain_exec g est b' base team exec chain.
Proof.
  intros H. induction chain as [|n chain IH]; intros exec; cbn [chain_exec]; [reflexivity|].
  rewrite H. rewrite IH. reflexivity.
Qed.
Lemma like_find g est sd sd' s n team ind asg apt : like sd sd' ->
  momentum_find g est sd s n team ind asg apt = momentum_find g est sd' s n team ind asg apt.
Proof.
  intros H. unfold momentum_find. destruct (chain_of g n); [|reflexivity].
  rewrite (like_bound g _ _ asg apt n H).
  rewrite (chain_exec_ext g est _ _ _ team (fun m => like_bound g _ _ asg apt m H)). reflexivity.
Qed.
Lemma like_place team c c' : (team <> [] -> c = c') -> forall chain times cur sd sd', like sd sd' ->
  fst (place_chain team c cur chain times sd) = fst (place_chain team c' cur chain times sd') /\
  like (snd (place_chain team c cur chain times sd)) (snd (place_chain team c' cur chain times sd')).
Proof.
  intros Hc. induction chain as [|n chain IH]; intros [|[lag t] times] cur sd sd' H; cbn [place_chain]; auto.
  apply IH. constructor; [|exact H]. repeat split; auto.
Qed.
Lemma like_schedule g est sd sd' s n team c c' sp st apt sd1 s1 : like sd sd' -> (team <> [] -> c = c') ->
  momentum_schedule g est sd s n team c sp st apt = Some (sd1, s1) ->
  exists sd1', momentum_schedule g est sd' s n team c' sp st apt = Some (sd1', s1) /\ like sd1 sd1'.
Proof.
  intros H Hc. unfold momentum_schedule. rewrite (like_find g est _ _ s n team _ st apt H).
  destruct (chain_of g n) as [chain|]; [|discriminate].
  destruct (momentum_find _ _ _ _ _ _ _ _ _) as [[[st0 ft0] times0]|]; [|discriminate].
  set (times := match sp_time sp with Some a => _ | None => _ end).
  destruct (like_place team c c' Hc chain times st0 sd sd' H) as [P1 P2].
  destruct (place_chain team c st0 chain times sd) as [f x], (place_chain team c' st0 chain times sd') as [f' x'].
  simpl in *. subst f'. destruct (update_timeline _ _ _ _); [|discriminate]. intros [= <- <-]. eauto.
Qed.

(** ** Encoded rows *)
Lemma set_nth_some {A} (l : list A) : forall i x, (i < length l)%nat -> exists l', set_nth i x l = Some l'.
Proof.
  induction l as [|y l IH]; intros i x Hi; [simpl in Hi; lia|]. destruct i as [|i]; simpl in *; [eauto|].
  destruct (IH i x) as [l' ->]; [lia|eauto].
Qed.
Lemma set_nth_spec {A} (l : list A) : forall i x l', set_nth i x l = Some l' ->
  length l' = length l /\ nth_error l' i = Some x /\ forall j, j <> i -> nth_error l' j = nth_error l j.
Proof.
  induction l as [|y l IH]; intros i x l'; simpl; [discriminate|]. destruct i as [|i].
  - intros [= <-]. split; [reflexivity|]. split; [reflexivity|]. intros [|j] Hj; [congruence|reflexivity].
  - destruct (set_nth i x l) as [l0|] eqn:E; [|discriminate]. intros [= <-]. destruct (IH _ _ _ E) as (A1 & A2 & A3).
    split; [simpl; congruence|]. split; [exact A2|]. intros [|j] Hj; [reflexivity|]. simpl. apply A3. congruence.
Qed.

Lemma index_of_length l x i : index_of l x = Some i -> (i < length l)%nat.
Proof. intros H. apply index_of_nth in H. apply nth_error_Some. congruence. Qed.
Lemma nth_map_id cs ci id : nth_error (map ct_id cs) ci = Some id -> exists c, nth_error cs ci = Some c /\ ct_id c = id.
Proof.
  revert ci. induction cs as [|c cs IH]; intros [|ci] H; simpl in *; try discriminate; [injection H as <-; eauto|auto].
Qed.

Section Encode.
  Variables (names : list nat) (cs : list contractor).

  Lemma encode_team_spec id ci : index_of (map ct_id cs) id = Some ci -> forall team l0 c0, length l0 = length names ->
    NoDup (map w_kind team) -> (forall w, In w team -> In (w_kind w) names /\ w_contractor w = id) ->
    exists l', encode_team names cs team (l0, c0) = Some (l', match team with [] => c0 | _ => ci end) /\
      length l' = length names /\
      (forall w i, In w team -> index_of names (w_kind w) = Some i -> nth_error l' i = Some (w_count w)) /\
      (forall i, (forall w, In w team -> index_of names (w_kind w) <> Some i) -> nth_error l' i = nth_error l0 i).
  Proof.
    intros Hci. induction team as [|w team IH]; intros l0 c0 Hl Hnd Hin.
    - exists l0. cbn [encode_team]. repeat split; auto. intros w i [].
    - cbn [encode_team]. destruct (Hin w (or_introl eq_refl)) as [Hk Hw]. destruct (index_of_in _ _ Hk) as [i Hi].
      rewrite Hi, Hw, Hci. cbn [fst]. destruct (set_nth_some l0 i (w_count w)) as [l1 H1].
      { rewrite Hl. eapply index_of_length; eauto. }
      rewrite H1. destruct (set_nth_spec _ _ _ _ H1) as (A1 & A2 & A3). simpl in Hnd. inversion Hnd; subst.
      destruct (IH l1 ci) as (l' & B1 & B2 & B3 & B4); [congruence|assumption|intros; apply Hin; right; assumption|].
      exists l'. rewrite B1. split; [destruct team; reflexivity|]. split; [exact B2|]. split.
      + intros x j [<-|Hx] Hj; [|eapply B3; eauto]. rewrite Hi in Hj. injection Hj as <-. rewrite B4; [exact A2|].
        intros x Hx Hxi. apply index_of_nth in Hxi. apply index_of_nth in Hi. apply H2. rewrite Hi in Hxi. injection Hxi as ->.
        apply in_map. exact Hx.
      + intros j Hj. rewrite B4; [|intros x Hx; apply Hj; right; exact Hx]. apply A3. intros ->. apply (Hj w); [left; reflexivity|exact Hi].
  Qed.

  Variables (nodes : list nat) (spec : nat -> work_spec) (sd : sched).
  Hypothesis Hnodes : NoDup nodes.

  (** What the row of work [n] holds. *)
  Definition row_for (n : nat) (r : list Z * nat) : Prop :=
    exists sw, sd_get sd n = Some sw /\ encode_row names cs (spec n) (sw_team sw) (repeat 0 (length names), O) = Some r.

  Lemma encode_rows_spec : forall order rows, NoDup order ->
    (forall n, In n order -> exists i, index_of nodes n = Some i /\ nth_error rows i = Some (repeat 0 (length names), O)) ->
    (forall n, In n order -> exists r, row_for n r) ->
    exists rows', encode_rows names cs nodes spec sd order rows = Some rows' /\
      (forall n, In n order -> exists i r, index_of nodes n = Some i /\ nth_error rows' i = Some r /\ row_for n r) /\
      (forall i, (forall n, In n order -> index_of nodes n <> Some i) -> nth_error rows' i = nth_error rows i).
  Proof.
    induction order as [|n order IH]; intros rows Hnd Hr Hf; cbn [encode_rows].
    - exists rows. repeat split; auto. intros n [].
    - inversion Hnd; subst. destruct (Hr n (or_introl eq_refl)) as (i & Hi & Hri).
      destruct (Hf n (or_introl eq_refl)) as (r & sw & Hsw & Her). rewrite Hi, Hsw, Hri, Her.
      destruct (set_nth_some rows i r) as [rows1 H1']; [apply nth_error_Some; congruence|].
      rewrite H1'. destruct (set_nth_spec _ _ _ _ H1') as (_ & A2 & A3).
      assert (Hdiff : forall m, In m order -> index_of nodes m <> Some i).
      { intros m Hm Hmi. apply index_of_nth in Hmi. apply index_of_nth in Hi. rewrite Hi in Hmi. injection Hmi as ->. contradiction. }
      destruct (IH rows1) as (rows' & B1 & B2 & B3); [assumption| |intros; apply Hf; right; assumption|].
      { intros m Hm. destruct (Hr m (or_intror Hm)) as (j & Hj & Hrj). exists j. split; [exact Hj|].
        rewrite A3; [exact Hrj|]. intros ->. exact (Hdiff m Hm Hj). }
      exists rows'. split; [exact B1|]. split.
      + intros m [<-|Hm]; [|apply B2; exact Hm]. exists i, r. split; [exact Hi|]. split; [|exists sw; auto].
        rewrite B3; [exact A2|]. exact Hdiff.
      + intros j Hj. rewrite B3; [|intros m Hm; apply Hj; right; exact Hm]. apply A3. intros ->.
        apply (Hj n); [left; reflexivity|exact Hi].
  Qed.
End Encode.

(** ** The full borders *)
Lemma with_borders_full names ch : forall cs ci,
  (forall i c k n, nth_error cs i = Some c -> In (k, n) (ct_workers c) -> border_at names ch (ci + i) k = Some n) ->
  with_borders names ch ci cs = Some cs.
Proof.
  induction cs as [|c cs IH]; intros ci H; cbn [with_borders]; [reflexivity|].
  assert (E : map_opt (fun kn : nat * Z => match border_at names ch ci (fst kn) with Some n => Some (fst kn, n) | None => None end)
                (ct_workers c) = Some (ct_workers c)).
  { apply map_opt_forall2. assert (Hc : forall k n, In (k, n) (ct_workers c) -> border_at names ch ci k = Some n).
    { intros k n Hin. rewrite <- (H O c k n eq_refl Hin). f_equal. lia. }
    induction (ct_workers c) as [|[k n] l IHl]; constructor.
    - simpl. rewrite (Hc k n); [reflexivity|left; reflexivity].
    - apply IHl. intros k' n' Hin. apply Hc. right. exact Hin. }
  rewrite E. rewrite IH; [destruct c; reflexivity|]. intros i c' k n Hi Hin.
  replace (S ci + i)%nat with (ci + S i)%nat by lia. eapply H; eauto.
Qed.

(** ** Decoding retraces the list scheduler *)
Section Retrace.
  Variables (g : graph) (est : nat -> list worker -> Z)
    (optimize : nat -> nat -> sched -> mstate -> list border -> option (list bool) -> list Z -> option (list Z))
    (names : list nat) (cs : list contractor) (nodes : list nat) (spec : nat -> work_spec) (apt : Z).
  Hypothesis Hcs : contractors_ok cs.
  Hypothesis Hest : estimator_ok est.
  Hypothesis Hopt : forall n c sd s, optimizer_ok (optimize n c sd s).
  Hypothesis Hreqs : forall n, reqs_ok (reqs_of g n).
  Hypothesis Hvol : forall n, 0 <= volume_of g n.
  Hypothesis Hspec : forall n, spec_ok (spec n).
  Hypothesis Hapt : 0 <= apt <= TIME_INF.
  Hypothesis Hnames : NoDup names.
  Hypothesis Hkinds : forall n r, In r (reqs_of g n) -> In (r_kind r) names.
  Hypothesis Hids : forall n id, In id (sp_contractors (spec n)) -> In id (map ct_id cs).

  Let mfind := momentum_times g est.
  Let step := build_step mstate mfind (momentum_schedule g est) (reqs_of g) optimize cs spec.
  Let loop := build_loop mstate mfind (momentum_schedule g est) (reqs_of g) optimize cs spec.

  (** The facts about one step of the list scheduler that decoding needs. *)
  Lemma step_facts is_first is_last n sd s sd1 s1 : step is_first is_last apt n sd s = Done (sd1, s1) ->
    exists ct team st ft times, In ct cs /\
      Forall2 (fun r k => w_contractor k = ct_id ct /\ w_kind k = r_kind r /\
        exists cap, In (r_kind r, cap) (ct_workers ct) /\
        count_ok (sp_workers (spec n)) (Nat.eqb (length (sp_workers (spec n))) (length (reqs_of g n)))
                 (Bd (r_kind r) (r_min r) (Z.min (r_max r) cap) cap) (w_count k)) (reqs_of g n) team /\
      momentum_find g est sd s n team (sp_independent (spec n)) None apt = Some (st, ft, times) /\ 0 <= st /\
      momentum_schedule g est sd s n team (ct_id ct) (spec n)
        (Some (if is_last then tmax (if is_first then apt else st) 0 else if is_first then apt else st)) apt = Some (sd1, s1).
  Proof.
    intros H. unfold step, build_step in H.
    destruct (run_contractor_search _ _ _) as [[[[st ft] ct] team]| |] eqn:Es; try discriminate.
    apply contractor_search_best in Es; [|intros c0 st0 ft0 tm0; eapply runner_range; eauto]. destruct Es as (Ein & Er & Eft & _).
    destruct (runner_team _ _ _ _ _ _ _ _ _ _ _ _ _ Hopt (Hreqs n) (Hspec n) Er Eft) as (t & -> & Ht & _ & _ & Ef & HF).
    destruct (momentum_schedule _ _ _ _ _ _ _ _ _ _) as [[sd2 s2]|] eqn:Em; [|discriminate]. injection H as <- <-.
    unfold mfind, momentum_times in Ef. destruct (momentum_find _ _ _ _ _ _ _ _ _) as [[[a b] l]|] eqn:Emf; [|discriminate].
    injection Ef as -> ->.
    assert (Hst := momentum_find_start _ _ _ _ _ _ _ _ _ _ _ Hest Hapt Emf Eft).
    destruct (parent_bound_range g sd None apt n Hapt I) as [Hb _].
    apply filter_In in Ein as [Ein _].
    exists ct, (to_workers t), st, ft, l. split; [exact Ein|]. split.
    { clear -HF Hcs Ein. revert HF. generalize (length (reqs_of g n)) as ln. intros ln HF.
      induction HF as [|rq k rs tm (D1 & D2 & D3 & cap & D4 & D5) HF IH]; constructor; [|exact IH].
      split; [exact D1|]. split; [exact D2|]. exists cap. split; [eapply capacity_pool_own; eauto|exact D5]. }
    split; [exact Emf|]. split; [lia|]. exact Em.
  Qed.

  Lemma apply_spec_same n ct team :
    Forall2 (fun r k => w_contractor k = ct_id ct /\ w_kind k = r_kind r /\
        exists cap, In (r_kind r, cap) (ct_workers ct) /\
        count_ok (sp_workers (spec n)) (Nat.eqb (length (sp_workers (spec n))) (length (reqs_of g n)))
                 (Bd (r_kind r) (r_min r) (Z.min (r_max r) cap) cap) (w_count k)) (reqs_of g n) team ->
    (length (sp_workers (spec n)) = length (reqs_of g n) ->
       forall r, In r (reqs_of g n) -> In (r_kind r) (map fst (sp_workers (spec n)))) ->
    apply_spec (sp_workers (spec n)) (reqs_of g n) team = Some team.
  Proof.
    intros HF Hfull. apply map_opt_forall2.
    assert (Hk : forall r, In r (reqs_of g n) -> In r (reqs_of g n)) by auto. revert HF Hk.
    generalize (reqs_of g n) at 2 3 as l. intros l HF. 
    induction HF as [|r k l tm (H1 & H2 & cap & H3 & H4) _ IH]; intros Hk; constructor; [|apply IH; intros; apply Hk; right; assumption].
    destruct (existsb _ _); [|reflexivity]. rewrite H2. unfold count_ok in H4. cbn [bd_kind] in H4.
    destruct k as [kc kk kn]. simpl in *. subst kc kk.
    destruct (Nat.eqb_spec (length (sp_workers (spec n))) (length (reqs_of g n))) as [E|E].
    - destruct (assoc_get_some _ _ (Hfull E r (Hk r (or_introl eq_refl)))) as [m Hm]. rewrite Hm in *. simpl in H4. congruence.
    - destruct (assoc_get _ _) as [m|]; [|reflexivity]. simpl in H4. destruct (0 <? m); congruence.
  Qed.

  Variable ch : chromosome.
  Hypothesis Hchspec : forall n, ch_spec ch n = spec n.
  Hypothesis Hfull : forall n, length (sp_workers (spec n)) = length (reqs_of g n) ->
       forall r, In r (reqs_of g n) -> In (r_kind r) (map fst (sp_workers (spec n))).
  Let sloop := serial_loop g est names cs nodes ch apt.

  Hypothesis Hne : cs <> [].
  Local Notation zeros := (repeat 0 (length names), O).

  (** The team of a step can be encoded, and its row gives the team back. *)
  Lemma row_of_team n ct team : In ct cs ->
    Forall2 (fun r k => w_contractor k = ct_id ct /\ w_kind k = r_kind r /\
        exists cap, In (r_kind r, cap) (ct_workers ct) /\
        count_ok (sp_workers (spec n)) (Nat.eqb (length (sp_workers (spec n))) (length (reqs_of g n)))
                 (Bd (r_kind r) (r_min r) (Z.min (r_max r) cap) cap) (w_count k)) (reqs_of g n) team ->
    exists amounts ci ct', encode_row names cs (spec n) team zeros = Some (amounts, ci) /\
      nth_error cs ci = Some ct' /\ (team <> [] -> ct' = ct) /\
      serial_team names ct' amounts (reqs_of g n) = Some team.
  Proof.
    intros Hct HF. destruct team as [|k0 tm0] eqn:Etm.
    - inversion HF as [Hq|]; subst. unfold encode_row, encode_contractor.
      assert (Hhd : exists id, hd_error (match sp_contractors (spec n) with [] => map ct_id cs | l => l end) = Some id /\ In id (map ct_id cs)).
      { destruct (sp_contractors (spec n)) as [|id l] eqn:El.
        - destruct cs as [|c0 cs0]; [congruence|]. exists (ct_id c0). simpl. auto.
        - exists id. split; [reflexivity|]. apply (Hids n). rewrite El. left. reflexivity. }
      destruct Hhd as (id & Hh & Hin). destruct (match sp_contractors (spec n) with [] => _ | _ => _ end) as [|y l]; [discriminate|].
      injection Hh as ->. destruct (index_of_in _ _ Hin) as [ci Hci]. rewrite Hci.
      destruct (nth_map_id _ _ _ (index_of_nth _ _ _ Hci)) as (ct' & Hct' & _).
      exists (repeat 0 (length names)), ci, ct'. repeat split; auto; try congruence.
    - rewrite <- Etm in *. assert (Htne : team <> []) by (rewrite Etm; discriminate).
      assert (Ekinds : map w_kind team = map r_kind (reqs_of g n)).
      { clear -HF. revert HF. generalize (length (reqs_of g n)) as ln. intros ln HF. induction HF as [|r k l tm (_ & E & _) _ IH]; [reflexivity|]. simpl. congruence. }
      assert (Hin : forall k, In k team -> In (w_kind k) names /\ w_contractor k = ct_id ct).
      { intros k Hk. split.
        - assert (Hk' : In (w_kind k) (map w_kind team)) by (apply in_map; exact Hk). rewrite Ekinds in Hk'.
          apply in_map_iff in Hk' as (r & <- & Hr). eapply Hkinds; eauto.
        - clear -HF Hk. revert HF. generalize (length (reqs_of g n)) as ln. intros ln HF. induction HF as [|r x l tm (E & _) _ IH]; [destruct Hk|]. destruct Hk as [<-|Hk]; auto. }
      destruct (index_of_in (map ct_id cs) (ct_id ct) (in_map ct_id _ _ Hct)) as [ci Hci].
      destruct (nth_map_id _ _ _ (index_of_nth _ _ _ Hci)) as (ct' & Hct' & Eid).
      assert (ct' = ct).
      { apply In_nth_error in Hct as [j Hj]. assert (j = ci); [|congruence].
        apply (NoDup_nth_error (map ct_id cs)); [apply Hcs| |].
        - rewrite map_length. apply nth_error_Some. congruence.
        - rewrite (map_nth_error ct_id _ _ Hj). rewrite (index_of_nth _ _ _ Hci). reflexivity. }
      subst ct'.
      destruct (encode_team_spec names cs (ct_id ct) ci Hci team (repeat 0 (length names)) O) as (l' & B1 & B2 & B3 & _).
      { apply repeat_length. } { rewrite Ekinds. apply Hreqs. } { exact Hin. }
      exists l', ci, ct. rewrite Etm in B1 at 2. split; [unfold encode_row; rewrite Etm in *; exact B1|]. split; [exact Hct'|]. split; [auto|].
      apply map_opt_forall2.
      assert (Hsub : forall k, In k team -> In k team) by auto. revert HF Hsub.
      generalize (reqs_of g n) at 2 3 as l. generalize team at 1 2 4 as tm. intros tm l HF.
      induction HF as [|r k l tm (E1 & E2 & cap & E3 & _) _ IH]; intros Hsub; constructor; [|apply IH; intros; apply Hsub; right; assumption].
      destruct (assoc_get_some (ct_workers ct) (r_kind r)) as [a Ha]; [apply in_map_iff; exists (r_kind r, cap); auto|]. rewrite Ha.
      assert (Hk : In k team) by (apply Hsub; left; reflexivity). destruct (Hin k Hk) as [Hk1 _].
      destruct (index_of_in _ _ Hk1) as [i Hi]. rewrite <- E2, Hi, (B3 k i Hk Hi). destruct k; simpl in *. congruence.
  Qed.

  Lemma decode_step is_first is_last n w sd sd' s sd1 s1 r :
    step is_first is_last apt n sd s = Done (sd1, s1) -> like sd sd' ->
    nth_error nodes w = Some n -> nth_error (ch_rows ch) w = Some r ->
    (forall c sp st apt team, momentum_schedule g est sd s n team c sp st apt = Some (sd1, s1) ->
        encode_row names cs (spec n) team zeros = Some r) ->
    exists sd1', serial_step g est names cs nodes ch apt is_first w sd' s = Some (sd1', s1) /\ like sd1 sd1'.
  Proof.
    intros H Hlike Hn Hr Henc. destruct (step_facts _ _ _ _ _ _ _ H) as (ct & team & st & ft & times & F1 & F2 & F3 & F4 & F5).
    destruct (row_of_team n ct team F1 F2) as (amounts & ci & ct' & R1 & R2 & R3 & R4).
    rewrite (Henc _ _ _ _ _ F5) in R1. injection R1 as ->.
    unfold serial_step. rewrite Hn, Hr, R2, R4, Hchspec, (apply_spec_same n ct team F2 (Hfull n)).
    rewrite <- (like_find g est sd sd' s n team _ None apt Hlike), F3.
    assert (Hidle : team <> [] -> ct_id ct = ct_id ct') by (intros Hne'; rewrite (R3 Hne'); reflexivity).
    destruct (like_schedule _ _ _ _ _ _ _ _ _ _ _ _ _ _ Hlike Hidle F5) as (sd1' & S1 & S2).
    exists sd1'. split; [|exact S2]. rewrite <- S1. f_equal. f_equal.
    destruct is_last; [|reflexivity]. rewrite tmax_spec. destruct is_first; lia.
  Qed.

  Lemma place_chain_prefix team c : forall chain times cur sd fin sd', place_chain team c cur chain times sd = (fin, sd') ->
    exists new, sd' = new ++ sd.
  Proof.
    induction chain as [|n chain IH]; intros [|[lag t] times] cur sd fin sd'; cbn [place_chain]; try (intros [= _ <-]; exists []; reflexivity).
    intros H. apply IH in H as [new ->]. exists (new ++ [(n, SW (tadd cur lag) (tadd (tadd cur lag) t) team c)]). rewrite <- app_assoc. reflexivity.
  Qed.
  Lemma schedule_prefix sd s n team c sp st apt' sd1 s1 : momentum_schedule g est sd s n team c sp st apt' = Some (sd1, s1) ->
    exists new, sd1 = new ++ sd.
  Proof.
    unfold momentum_schedule. destruct (chain_of g n); [|discriminate]. destruct (momentum_find _ _ _ _ _ _ _ _ _) as [[[? ?] ?]|]; [|discriminate].
    destruct (place_chain _ _ _ _ _ _) as [f x] eqn:E. apply place_chain_prefix in E.
    destruct (update_timeline _ _ _ _); [|discriminate]. intros [= <- _]. exact E.
  Qed.
  Lemma step_prefix is_first is_last n sd s sd1 s1 : step is_first is_last apt n sd s = Done (sd1, s1) -> exists new, sd1 = new ++ sd.
  Proof.
    intros H. destruct (step_facts _ _ _ _ _ _ _ H) as (ct & team & st & ft & times & _ & _ & _ & _ & F5).
    eapply schedule_prefix; eauto.
  Qed.
  Lemma loop_prefix : forall heads is_first sd s sdF sF, loop is_first apt heads sd s = Done (sdF, sF) -> exists new, sdF = new ++ sd.
  Proof.
    induction heads as [|n heads IH]; intros is_first sd s sdF sF H; unfold loop in H; cbn [build_loop] in H.
    - injection H as <- _. exists []. reflexivity.
    - fold loop step in H. destruct (step _ _ _ _ _ _) as [[sd1 s1]| |] eqn:Es; try discriminate.
      apply IH in H as [new ->]. apply step_prefix in Es as [new' ->]. exists (new ++ new'). rewrite app_assoc. reflexivity.
  Qed.
  (** Every entry that a call adds has the given team. *)
  Lemma place_chain_team team c : forall chain times cur sd fin sd' x, place_chain team c cur chain times sd = (fin, sd') ->
    In x sd' -> In x sd \/ sw_team (snd x) = team.
  Proof.
    induction chain as [|n chain IH]; intros [|[lag t] times] cur sd fin sd' x; cbn [place_chain]; try (intros [= _ <-]; auto).
    intros H Hx. destruct (IH _ _ _ _ _ _ H Hx) as [[<-|Hin]|Hin]; auto.
  Qed.
  Lemma schedule_team sd s n team c sp st apt' sd1 s1 x : momentum_schedule g est sd s n team c sp st apt' = Some (sd1, s1) ->
    In x sd1 -> In x sd \/ sw_team (snd x) = team.
  Proof.
    unfold momentum_schedule. destruct (chain_of g n); [|discriminate]. destruct (momentum_find _ _ _ _ _ _ _ _ _) as [[[? ?] ?]|]; [|discriminate].
    destruct (place_chain _ _ _ _ _ _) as [f y] eqn:E. destruct (update_timeline _ _ _ _); [|discriminate]. intros [= <- _] Hx.
    eapply place_chain_team; eauto.
  Qed.

  Lemma retrace sdF : forall heads order is_first chains rest sd s h sF sd',
    sinv g cs spec chains sd s h -> (is_first = true -> sd = []) ->
    chains_of g heads = Some rest -> Z.of_nat (length (chains ++ rest)) < TIME_INF -> NoDup (concat (chains ++ rest)) ->
    (forall e, In e (g_edges g) -> In (e_from e) (concat (chains ++ rest)) -> In (e_to e) (concat (chains ++ rest)) ->
       comes_before (concat (chains ++ rest)) (e_from e) (e_to e)) ->
    loop is_first apt heads sd s = Done (sdF, sF) -> like sd sd' ->
    Forall2 (fun w n => nth_error nodes w = Some n /\ exists r, nth_error (ch_rows ch) w = Some r /\ row_for names cs spec sdF n r) order heads ->
    exists sdF', sloop is_first order sd' s = Some (sdF', sF) /\ like sdF sdF'.
  Proof.
    induction heads as [|n heads IH]; intros order is_first chains rest sd s h sF sd' HI Hf Hc Hlen Hnd Htopo H Hlike HO; inversion HO as [|x ? order' ? HO1 HO2]; subst.
    - simpl in H. injection H as <- <-. exists sd'. split; [reflexivity|exact Hlike].
    - destruct HO1 as (Hn & r & Hr & sw & Hsw & Her). cbn [chains_of] in Hc. destruct (chain_of g n) as [c|] eqn:Ec; [|discriminate].
      destruct (chains_of g heads) as [rest'|] eqn:Erest; [|discriminate]. injection Hc as <-.
      unfold loop in H. cbn [build_loop] in H. fold loop step in H.
      set (is_last := match heads with [] => true | _ => false end) in H.
      destruct (step is_first is_last apt n sd s) as [[sd1 s1]| |] eqn:Es; try discriminate.
      assert (Eapp : chains ++ c :: rest' = (chains ++ [c]) ++ rest') by (rewrite <- app_assoc; reflexivity).
      rewrite Eapp in *.
      assert (HF : exists hF, sinv g cs spec (chains ++ c :: rest') sdF sF hF).
      { eapply (loop_inv g est optimize cs spec apt Hcs Hest Hopt Hreqs Hvol Hspec Hapt (n :: heads) is_first chains (c :: rest') sd s h); eauto.
        - cbn [chains_of]. rewrite Ec, Erest. reflexivity.
        - rewrite Eapp. exact Hlen.
        - rewrite Eapp. exact Hnd.
        - rewrite Eapp. exact Htopo.
        - cbn [build_loop]. fold mfind step loop. fold is_last. rewrite Es. exact H. }
      destruct HF as [hF HF]. assert (KF := i_keys _ _ _ _ _ _ _ _ HF). rewrite Eapp in KF.
      assert (HndF : NoDup (map fst sdF)) by (rewrite KF; apply NoDup_rev; exact Hnd).
      rewrite concat_app in Hnd, Htopo.
      assert (HI1 : exists h1, sinv g cs spec (chains ++ [c]) sd1 s1 h1).
      { eapply (step_inv g est optimize cs spec apt Hcs Hest Hopt Hreqs Hvol Hspec Hapt); [exact HI|exact Hf| |exact Ec| | |exact Es].
        - rewrite !app_length in Hlen. simpl in Hlen. lia.
        - eapply nodup_app_l. exact Hnd.
        - intros e He H1 H2. eapply comes_before_prefix; [exact Hnd| |exact H2].
          apply Htopo; [exact He|apply in_or_app; left; exact H1|apply in_or_app; left; exact H2]. }
      destruct HI1 as [h1 HI1].
      destruct (loop_prefix _ _ _ _ _ _ H) as [newF EF].
      destruct (decode_step is_first is_last n x sd sd' s sd1 s1 r Es Hlike Hn Hr) as (sd1' & S1 & S2).
      { intros c' sp' st' apt' team Hs. assert (K1 := i_keys _ _ _ _ _ _ _ _ HI1). assert (K0 := i_keys _ _ _ _ _ _ _ _ HI).
        assert (Hin1 : In n (map fst sd1)).
        { rewrite K1. apply -> in_rev. rewrite concat_app. apply in_or_app. right. simpl. rewrite app_nil_r.
          destruct (chain_head _ _ _ Ec) as [q ->]. left. reflexivity. }
        apply in_map_iff in Hin1 as ([m v] & Em & Hv). simpl in Em. subst m.
        assert (HvF : In (n, v) sdF) by (rewrite EF; apply in_or_app; right; exact Hv).
        apply (sd_get_in _ _ _ HndF) in HvF. rewrite HvF in Hsw. injection Hsw as ->.
        destruct (schedule_team _ _ _ _ _ _ _ _ _ _ _ Hs Hv) as [Hold|Ht]; [|simpl in Ht; rewrite <- Ht; exact Her].
        exfalso. apply in_sd_key in Hold. rewrite K0 in Hold. apply in_rev in Hold.
        rewrite concat_app in Hnd. simpl in Hnd. rewrite app_nil_r in Hnd. apply nodup_app_l in Hnd.
        eapply nodup_app_disj; [exact Hnd|exact Hold|]. destruct (chain_head _ _ _ Ec) as [q ->]. left. reflexivity. }
      unfold sloop. cbn [serial_loop]. rewrite S1. fold sloop.
      eapply (IH _ false (chains ++ [c]) rest' sd1 s1 h1 sF sd1'); eauto.
      + discriminate.
      + rewrite concat_app. exact Hnd.
      + rewrite concat_app. exact Htopo.
  Qed.
End Retrace.
