(** Properties C16 - C18 and C48: the schedule validator, durations. Vocabulary:
    [ScheduleSpec], [MomentumSpec]. *)
From Coq Require Import ZArith List Bool Lia Permutation Sorted ZifyBool.
From Verif Require Import TimeModel TimeProofs MomentumModel MomentumSpec MomentumHistory MomentumTeamProofs JITModel GraphModel ScheduleModel ScheduleSpec
  SchedulePoolProofs TeamProofs ContractorTheorems ScheduleProofs ScheduleInv StableSort ValidationModel ValidationProofs
  DurationProofs ScheduleTheorems JitScheduleTheorems.
Import ListNotations.
Local Open Scope Z_scope.

(** C16. Works have proper intervals and teams of one listed contractor each. *)
Theorem capacity_check_exact :
  forall ws cs,
    contractors_ok cs ->
    (forall n w, In (n, w) ws -> 0 <= sw_start w <= sw_finish w) ->
    (forall n w, In (n, w) ws -> exists ct, In ct cs /\ forall k, In k (sw_team w) ->
       w_contractor k = ct_id ct /\ In (w_kind k) (map fst (ct_workers ct)) /\ 0 <= w_count k) ->
    (check_capacity ws cs = true <->
     forall ct k n t, In ct cs -> In (k, n) (ct_workers ct) ->
       busy (schedule_bookings ws) (ct_id ct, k) t <= n).
Proof.
  intros ws cs Hcs Hiv Hteam.
  set (init := initial_state cs).
  assert (Hi : forall a, pool_get init a = capacity (pool_of cs) a) by (apply initial_spec; exact Hcs).
  assert (Hev : forall e, In e (ordered_events ws) -> exists x, In x ws /\ In e (work_events x)).
  { intros e He. apply (Permutation_in e (sort_perm ve_time _)) in He.
    apply in_concat in He as (l & Hl & He). apply in_map_iff in Hl as (x & <- & Hx). eauto. }
  assert (Hpos : forall x w, In x ws -> In w (sw_team (snd x)) -> 0 <= w_count w).
  { intros [n w] k Hx Hk. destruct (Hteam n w Hx) as (ct & _ & H). apply (H k Hk). }
  assert (Hamt0 : forall a, known init a -> 0 <= amt init a).
  { intros a Ha. unfold amt. rewrite Hi. unfold known in Ha. rewrite Hi in Ha.
    destruct (capacity (pool_of cs) a) as [n|] eqn:E; [|congruence].
    destruct a as [i k]. apply capacity_pool_inv in E as (ct & Hct & <- & Hin).
    destruct Hcs as [_ Hok]. destruct (Hok ct Hct) as [_ Hn]. eapply Hn; eauto. }
  assert (HS := sweep_spec init (ordered_events ws) init [] 0).
  unfold check_capacity. fold init.
  destruct HS as [HS1 HS2].
  - apply sort_ascending.
  - intros e He. destruct (Hev e He) as ([n w] & Hx & Hin). assert (Hw := Hiv n w Hx).
    destruct Hin as [<-|[<-|[]]]; simpl; lia.
  - intros e He. destruct (Hev e He) as ([n w] & Hx & Hin). destruct (Hteam n w Hx) as (ct & Hct & Hk).
    assert (Et : ve_team e = sw_team w) by (destruct Hin as [<-|[<-|[]]]; reflexivity). rewrite Et.
    intros k Hin'. destruct (Hk k Hin') as (K1 & K2 & K3). split.
    + unfold known. rewrite Hi, K1. apply in_map_iff in K2 as ([k' m] & E' & K2). simpl in E'. subst k'.
      rewrite (capacity_pool cs ct _ m Hcs Hct K2). discriminate.
    + intros k' Hk'. destruct (Hk k' Hk') as (K1' & _). congruence.
  - constructor.
  - intros a [].
  - tauto.
  - intros a Ha. specialize (Hamt0 a Ha). lia.
  - assert (Hb : forall a t, total (filter (fun e => ve_time e <=? t) (ordered_events ws)) a = - busy (schedule_bookings ws) a t).
    { intros a t. rewrite <- total_events by (intros [n w] Hx; apply (Hiv n w Hx)).
      apply total_perm. apply filter_perm. apply sort_perm. }
    assert (Hsome : forall ct k n, In ct cs -> In (k, n) (ct_workers ct) -> known init (ct_id ct, k) /\ amt init (ct_id ct, k) = n).
    { intros ct k n Hct Hin. unfold known, amt. rewrite Hi, (capacity_pool cs ct k n Hcs Hct Hin). split; [discriminate|reflexivity]. }
    split.
    + intros H ct k n t Hct Hin. destruct (Hsome ct k n Hct Hin) as [Hk Ha].
      assert (HC : checked init (ordered_events ws) init [] 0).
      { apply HS1. destruct (sweep _ _ _ _ _); [discriminate|discriminate H]. }
      assert (Hn := Hamt0 _ Hk). rewrite Ha in Hn.
      destruct (Z_lt_ge_dec t 0) as [Ht|Ht].
      { rewrite busy_zero; [exact Hn|]. intros [m w] Hx _. assert (Hw := Hiv m w Hx). simpl. lia. }
      destruct (existsb (fun e => match ve_team e with [] => false | _ => t <? ve_time e end) (ordered_events ws)) eqn:Ex.
      * apply existsb_exists in Ex as (e & He & Hlt).
        assert (Hne : ve_team e <> []) by (intros E; rewrite E in Hlt; discriminate).
        assert (Hlt' : t < ve_time e) by (destruct (ve_team e); [discriminate|lia]).
        specialize (HC (ct_id ct, k) t Hk ltac:(lia) (ex_intro _ e (conj He (conj Hne Hlt')))).
        rewrite Hb, Ha in HC. replace (amt [] (ct_id ct, k)) with 0 in HC by reflexivity. lia.
      * rewrite busy_zero; [exact Hn|]. intros x Hx Hne. right.
        assert (He : In (VE EvEnd (sw_finish (snd x)) (sw_team (snd x))) (ordered_events ws)).
        { apply (Permutation_in _ (Permutation_sym (sort_perm ve_time _))). apply in_concat.
          exists (work_events x). split; [apply in_map; exact Hx|right; left; reflexivity]. }
        destruct (Z_le_gt_dec (sw_finish (snd x)) t) as [|Hgt]; [assumption|]. exfalso.
        assert (Et : existsb (fun e => match ve_team e with [] => false | _ => t <? ve_time e end) (ordered_events ws) = true); [|congruence].
        apply existsb_exists. eexists. split; [exact He|]. simpl. destruct (sw_team (snd x)); [congruence|lia].
    + intros H.
      assert (HC : checked init (ordered_events ws) init [] 0).
      { intros [i k] t Ka Ht _. rewrite Hb. replace (amt [] (i, k)) with 0 by reflexivity.
        assert (Hcap := Ka). unfold known in Hcap. rewrite Hi in Hcap.
        destruct (capacity (pool_of cs) (i, k)) as [n|] eqn:E; [|congruence].
        assert (Ha : amt init (i, k) = n) by (unfold amt; rewrite Hi, E; reflexivity).
        apply capacity_pool_inv in E as (ct & Hct & <- & Hin). specialize (H ct k n t Hct Hin).
        assert (B := busy_nonneg ws (ct_id ct, k) t Hpos). lia. }
      apply HS2 in HC. destruct (sweep _ _ _ _ _); [reflexivity|congruence].
Qed.
Print Assumptions capacity_check_exact.
(** Two overlapping works of two workers each fit a contractor of four, not of three;
    three works that follow each other fit. *)
Definition vx_works (s : Z) : works :=
  [(1%nat, SW 0 5 [Wk 0 0 2; Wk 0 1 1] 0); (2%nat, SW s 9 [Wk 0 0 2] 0); (3%nat, SW 9 9 [] 0);
   (4%nat, SW 9 12 [Wk 0 0 3; Wk 0 1 1] 0)].
Example vx_hypotheses : forall s, 0 <= s <= 9 ->
  let cs := [Ct 0 [(0%nat, 3); (1%nat, 1)]; Ct 1 [(0%nat, 2)]] in
  contractors_ok cs /\
  (forall n w, In (n, w) (vx_works s) -> 0 <= sw_start w <= sw_finish w) /\
  (forall n w, In (n, w) (vx_works s) -> exists ct, In ct cs /\ forall k, In k (sw_team w) ->
       w_contractor k = ct_id ct /\ In (w_kind k) (map fst (ct_workers ct)) /\ 0 <= w_count k).
Proof.
  intros s Hs cs. split; [|split].
  - unfold contractors_ok. split; [repeat constructor; simpl; intuition lia|].
    intros c [<-|[<-|[]]]; simpl; (split; [repeat constructor; simpl; intuition lia|]); intros k n H; simpl in H;
      intuition (match goal with H : (_, _) = (_, _) |- _ => injection H as <- <- end; lia).
  - intros n w H. simpl in H. intuition (match goal with H : (_, _) = (_, _) |- _ => injection H as <- <- end; simpl; lia).
  - intros n w H. exists (Ct 0 [(0%nat, 3); (1%nat, 1)]). split; [left; reflexivity|]. intros k Hk. simpl in H.
    intuition (match goal with H : (_, _) = (_, _) |- _ => injection H as <- <- end; simpl in Hk;
      repeat destruct Hk as [<-|Hk]; try destruct Hk; simpl; auto; lia).
Qed.
Example vx_capacity :
  check_capacity (vx_works 3) [Ct 0 [(0%nat, 3); (1%nat, 1)]; Ct 1 [(0%nat, 2)]] = false /\
  check_capacity (vx_works 5) [Ct 0 [(0%nat, 3); (1%nat, 1)]; Ct 1 [(0%nat, 2)]] = true.
Proof. split; vm_compute; reflexivity. Qed.

(** C17. [nodes] are the works of the graph. *)
Theorem validated_schedule_sound :
  forall g nodes ws cs spec,
    NoDup (map fst ws) ->
    validate_schedule g nodes ws cs spec = true -> execution_time ws <> Some TIME_INF ->
    (* every work is scheduled, and nothing else *)
    (forall n, In n nodes <-> In n (map fst ws)) /\
    (* predecessors; a work with predecessors has a proper interval *)
    (forall e wu wv, In e (g_edges g) -> is_dependency (e_type e) = true ->
       In (e_from e, wu) ws -> In (e_to e, wv) ws ->
       sw_start wu <= sw_finish wu <= sw_start wv /\ sw_start wv <= sw_finish wv) /\
    (* allowed contractors *)
    (forall n w, In (n, w) ws -> sp_contractors (spec n) = [] \/ In (sw_contractor w) (sp_contractors (spec n))) /\
    (* service works take no time *)
    (forall n w, In (n, w) ws -> u_service (g_unit g n) = true -> sw_finish w = sw_start w) /\
    (* teams are within the requirements *)
    (forall n w k, In (n, w) ws -> In k (sw_team w) ->
       exists r, In r (u_reqs (g_unit g n)) /\ r_kind r = w_kind k /\ r_min r <= w_count k <= r_max r) /\
    check_capacity ws cs = true.
Proof.
  intros g nodes ws cs spec Hnd H Hinf. unfold validate_schedule in H.
  destruct (execution_time ws) as [ft|]; [|discriminate].
  destruct (Z.eqb_spec ft TIME_INF) as [E|_]; [congruence|]. cbn [orb] in H.
  repeat rewrite andb_true_iff in H. destruct H as [[[[[H1 H2] H3] H4] H5] H6].
  unfold check_all_scheduled, check_parents, check_spec, check_durations, check_reqs in *.
  rewrite forallb_forall in H1, H2, H3, H4, H5.
  assert (Hget : forall n w, scheduled ws n = Some w <-> In (n, w) ws).
  { intros n w. unfold scheduled. rewrite sd_get_in.
    - rewrite <- in_rev. tauto.
    - rewrite map_rev. apply NoDup_rev. exact Hnd. }
  assert (Hnodes : forall n w, In (n, w) ws -> In n nodes).
  { intros n w Hin. specialize (H5 (n, w) Hin). apply andb_true_iff in H5 as [H5 _].
    apply existsb_exists in H5 as (m & Hm & E). apply Nat.eqb_eq in E. simpl in E. subst. exact Hm. }
  split; [|split; [|split; [|split; [|split; [|exact H6]]]]].
  - intros n. split; intros Hn.
    + specialize (H1 n Hn). destruct (scheduled ws n) as [w|] eqn:E; [|discriminate].
      apply Hget in E. eapply in_sd_key; eauto.
    + apply in_map_iff in Hn as ([m w] & <- & Hin). eapply Hnodes; eauto.
  - intros e wu wv He Hd Hu Hv. specialize (H2 (e_to e) (Hnodes _ _ Hv)).
    rewrite (proj2 (Hget _ _) Hv) in H2. rewrite forallb_forall in H2.
    specialize (H2 (e_from e)). rewrite (proj2 (Hget _ _) Hu) in H2.
    assert (In (e_from e) (parents g (e_to e))) as Hp.
    { unfold parents. apply in_map. apply filter_In. split; [|exact Hd]. unfold edges_to. apply filter_In.
      split; [exact He|]. apply Nat.eqb_refl. }
    specialize (H2 Hp). lia.
  - intros n w Hin. specialize (H3 n (Hnodes _ _ Hin)). destruct (sp_contractors (spec n)) as [|c l] eqn:E; [left; reflexivity|].
    rewrite (proj2 (Hget _ _) Hin) in H3. unfold contractor_enabled in H3. rewrite E in H3.
    right. apply existsb_exists in H3 as (x & Hx & Ex). apply Nat.eqb_eq in Ex. rewrite Ex. exact Hx.
  - intros n w Hin Hs. specialize (H4 (n, w) Hin). cbn [fst snd] in H4. rewrite Hs in H4. cbn [negb orb] in H4.
    unfold tsub in H4. destruct (set_time_cases (sw_finish w - sw_start w)) as [[E R]|[[R E]|[R E]]]; rewrite E in H4; inf; lia.
  - intros n w k Hin Hkin. specialize (H5 (n, w) Hin). apply andb_true_iff in H5 as [_ H5].
    rewrite forallb_forall in H5. specialize (H5 k Hkin). cbn [fst] in H5. unfold req_of in H5.
    destruct (find _ _) as [r|] eqn:Ef; [|discriminate]. apply find_some in Ef as [Ef1 Ef2].
    exists r. split; [apply in_rev; exact Ef1|]. split; [apply Nat.eqb_eq; exact Ef2|lia].
Qed.
Print Assumptions validated_schedule_sound.

(** The example schedule is accepted, and rejected when a work is dropped, moved before
    its predecessor or given to a contractor that its specification does not allow. *)
Definition vx_schedule : works :=
  match sx_result with Done (sd, _) => rev sd | _ => [] end.
Example vx_accepted :
  NoDup (map fst vx_schedule) /\ execution_time vx_schedule <> Some TIME_INF /\
  validate_schedule sx_graph [0; 1; 2; 3; 4; 5]%nat vx_schedule sx_contractors sx_spec = true /\
  validate_schedule sx_graph [0; 1; 2; 3; 4; 5]%nat (tl vx_schedule) sx_contractors sx_spec = false /\
  validate_schedule sx_graph [0; 1; 2; 3; 4; 5]%nat
    (map (fun x => (fst x, SW (sw_start (snd x) - 1) (sw_finish (snd x)) (sw_team (snd x)) (sw_contractor (snd x))))
         vx_schedule) sx_contractors sx_spec = false /\
  validate_schedule sx_graph [0; 1; 2; 3; 4; 5]%nat
    (map (fun x => (fst x, SW (sw_start (snd x)) (sw_finish (snd x)) (sw_team (snd x)) 0%nat))
         vx_schedule) sx_contractors sx_spec = false.
Proof.
  split; [vm_compute; repeat constructor; simpl; intuition lia|].
  split; [vm_compute; discriminate|]. repeat split; vm_compute; reflexivity.
Qed.

(** Finding: a schedule whose last row ends at Time.inf() is accepted whatever it is. *)
Theorem infinite_schedule_not_validated :
  exists g nodes ws cs spec,
    validate_schedule g nodes ws cs spec = true /\ (exists n, In n nodes /\ ~ In n (map fst ws)) /\
    (exists ct k n, In ct cs /\ In (k, n) (ct_workers ct) /\ n < busy (schedule_bookings ws) (ct_id ct, k) 1).
Proof.
  exists sx_graph, [0; 1; 2; 3; 4; 5]%nat, [(1%nat, SW 0 TIME_INF [Wk 0 0 9] 0)], sx_contractors, sx_spec.
  split; [vm_compute; reflexivity|]. split.
  - exists 0%nat. split; [left; reflexivity|]. simpl. intuition lia.
  - exists (Ct 0 [(0%nat, 3); (1%nat, 2)]), 0%nat, 3. split; [left; reflexivity|]. split; [left; reflexivity|].
    vm_compute. reflexivity.
Qed.
Print Assumptions infinite_schedule_not_validated.

(** C48. Without assigned times every work takes the estimated time for its team. Over
    the interval timeline a work without requirements takes no time. *)
Theorem momentum_durations :
  forall g est optimize cs spec apt nodes sd s,
    (forall n, sp_time (spec n) = None) ->
    momentum_build g est optimize cs spec apt nodes = Done (sd, s) ->
    forall n w, In (n, w) sd ->
      sw_finish w = tadd (sw_start w) (match u_reqs (g_unit g n) with [] => 0 | _ => est n (sw_team w) end).
Proof.
  intros g est optimize cs spec apt nodes sd s Hno H.
  eapply (loop_durations spec mstate) with (P := momentum_duration g est) (sd := []); [|intros m w Hin; destruct Hin|exact H].
  intros. eapply momentum_schedule_durations; eassumption.
Qed.
Print Assumptions momentum_durations.
Theorem jit_durations :
  forall g est optimize cs spec apt nodes sd s,
    (forall n, sp_time (spec n) = None) ->
    jit_build g est optimize cs spec apt nodes = Done (sd, s) ->
    forall n w, In (n, w) sd -> sw_finish w = tadd (sw_start w) (est n (sw_team w)).
Proof.
  intros g est optimize cs spec apt nodes sd s Hno H.
  eapply (loop_durations spec jtimeline) with (P := jit_duration est) (sd := []); [|intros m w Hin; destruct Hin|exact H].
  intros. eapply jit_schedule_durations; eassumption.
Qed.
Print Assumptions jit_durations.
(** [sx_hypotheses], [sx_schedule] and [jx_schedule] give cases. *)

(** Two works of one chain are in the same order in the chain and in the whole list. *)
Lemma chain_order {A} (cs : list (list A)) c u v : NoDup (concat cs) -> In c cs -> In u c -> In v c ->
  comes_before (concat cs) u v -> comes_before c u v.
Proof.
  induction cs as [|d cs IH]; simpl; intros Hnd Hc Hu Hv Hb; [destruct Hc|].
  assert (Hno : forall x, In x d -> In x (concat cs) -> False) by (intros x; apply nodup_app_disj; exact Hnd).
  destruct Hc as [->|Hc].
  - destruct Hb as (p & q & r & E).
    assert (Hx : forall l1 l2 (m1 m2 : list A), l1 ++ l2 = m1 ++ m2 -> (exists k, l1 = m1 ++ k /\ m2 = k ++ l2) \/ (exists k, m1 = l1 ++ k /\ l2 = k ++ m2)).
    { clear. induction l1 as [|x l1 IH]; intros l2 m1 m2 H; [right; exists m1; auto|].
      destruct m1 as [|y m1]; [left; exists (x :: l1); auto|]. simpl in H. injection H as -> H.
      destruct (IH _ _ _ H) as [(k & -> & ->)|(k & -> & ->)]; [left|right]; exists k; auto. }
    replace (p ++ u :: q ++ v :: r) with ((p ++ u :: q ++ [v]) ++ r) in E by (rewrite <- !app_assoc; simpl; rewrite <- app_assoc; reflexivity).
    destruct (Hx _ _ _ _ E) as [(k & -> & _)|(k & Ek & E2)].
    + exists p, q, k. rewrite <- !app_assoc. simpl. rewrite <- app_assoc. reflexivity.
    + destruct k as [|y k].
      * rewrite app_nil_r in Ek. exists p, q, []. rewrite <- Ek. reflexivity.
      * exfalso. apply (Hno v Hv). rewrite E2.
        assert (In v (y :: k)); [|apply in_or_app; left; assumption].
        assert (El : exists k', y :: k = k' ++ [v]).
        { assert (rev (p ++ u :: q ++ [v]) = rev (c ++ y :: k)) by (rewrite Ek; reflexivity).
          rewrite !rev_app_distr in H. simpl in H. rewrite rev_app_distr in H. simpl in H.
          exists (rev (tl (rev (y :: k)))). rewrite <- (rev_involutive (y :: k)) at 1.
          simpl in *. destruct (rev k ++ [y]) as [|z l] eqn:El; [destruct (rev k); discriminate|].
          simpl in H. injection H as <- _. reflexivity. }
        destruct El as [k' ->]. apply in_or_app. right. left. reflexivity.
  - apply IH; auto; [eapply nodup_app_r; exact Hnd|].
    assert (Hu' : In u (concat cs)) by (apply in_concat; eauto).
    assert (Hv' : In v (concat cs)) by (apply in_concat; eauto).
    clear IH Hc Hu Hv Hnd. destruct Hb as (p & q & r & E).
    assert (G : forall d p, d ++ concat cs = p ++ u :: q ++ v :: r -> (forall x, In x d -> In x (concat cs) -> False) ->
                exists p', concat cs = p' ++ u :: q ++ v :: r).
    { clear -Hu'. induction d as [|x d IH]; intros p E Hno; [exists p; exact E|].
      destruct p as [|y p]; simpl in E; injection E as -> E.
      - exfalso. apply (Hno u); [left; reflexivity|exact Hu'].
      - apply (IH p E). intros z Hz. apply Hno. right. exact Hz. }
    destruct (G d p E Hno) as [p' E']. exists p', q, r. exact E'.
Qed.

Lemma validator_accepts g nodes cs spec sd ws :
  contractors_ok cs -> (forall n, reqs_ok (u_reqs (g_unit g n))) ->
  NoDup (map fst sd) -> sd <> [] -> Permutation ws sd ->
  (forall n, In n nodes <-> In n (map fst sd)) ->
  (forall e, In e (g_edges g) -> In (e_to e) nodes -> In (e_from e) nodes) ->
  (forall n w, In (n, w) sd -> 0 <= sw_start w <= sw_finish w) ->
  (forall e wu wv, In e (g_edges g) -> In (e_from e, wu) sd -> In (e_to e, wv) sd -> sw_finish wu <= sw_start wv) ->
  (forall n w, In (n, w) sd -> exists ct, In ct cs /\ sw_contractor w = ct_id ct /\
     (sp_contractors (spec n) = [] \/ In (ct_id ct) (sp_contractors (spec n))) /\
     (Forall2 (fun r k => w_contractor k = ct_id ct /\ w_kind k = r_kind r /\ 0 <= w_count k /\ r_min r <= w_count k <= r_max r)
              (u_reqs (g_unit g n)) (sw_team w)) /\
     (forall k, In k (sw_team w) -> In (w_kind k) (map fst (ct_workers ct)))) ->
  (forall n w, In (n, w) sd -> u_service (g_unit g n) = true -> sw_finish w = sw_start w) ->
  (forall ct k n t, In ct cs -> In (k, n) (ct_workers ct) -> busy (schedule_bookings sd) (ct_id ct, k) t <= n) ->
  validate_schedule g nodes ws cs spec = true.
Proof.
  intros Hcs Hreq Hnd Hne Hp Hnodes Hclosed Htimes Hprec Hteam Hserv Hcap.
  assert (Hin : forall n w, In (n, w) ws <-> In (n, w) sd).
  { intros n w. split; apply Permutation_in; [exact Hp|apply Permutation_sym; exact Hp]. }
  assert (Hget : forall n w, scheduled ws n = Some w <-> In (n, w) sd).
  { intros n w. unfold scheduled. rewrite sd_get_in.
    - rewrite <- in_rev. apply Hin.
    - rewrite map_rev. apply NoDup_rev. eapply Permutation_NoDup; [|exact Hnd].
      apply Permutation_map. apply Permutation_sym. exact Hp. }
  assert (Hsome : forall n, In n nodes -> exists w, In (n, w) sd).
  { intros n Hn. apply Hnodes in Hn. apply in_map_iff in Hn as ([m w] & <- & H). eauto. }
  unfold validate_schedule.
  assert (Hex : exists t, execution_time ws = Some t).
  { unfold execution_time. destruct (rev ws) as [|[n w] r] eqn:E; [|eauto]. exfalso. apply Hne.
    apply (f_equal (@rev _)) in E. rewrite rev_involutive in E. simpl in E. rewrite E in Hp.
    apply Permutation_nil. exact Hp. }
  destruct Hex as [t ->].
  assert (C1 : check_all_scheduled nodes ws = true).
  { apply forallb_forall. intros n Hn. destruct (Hsome n Hn) as [w Hw]. rewrite (proj2 (Hget n w) Hw). reflexivity. }
  assert (C2 : check_parents g nodes ws = true).
  { apply forallb_forall. intros n Hn. destruct (Hsome n Hn) as [w Hw]. rewrite (proj2 (Hget n w) Hw).
    apply forallb_forall. intros q Hq. unfold parents in Hq. apply in_map_iff in Hq as (e & <- & He).
    apply filter_In in He as [He _]. unfold edges_to in He. apply filter_In in He as [He Ee]. apply Nat.eqb_eq in Ee. subst n.
    destruct (Hsome (e_from e) (Hclosed e He Hn)) as [wu Hu]. rewrite (proj2 (Hget _ _) Hu).
    assert (A := Hprec e wu w He Hu Hw). assert (B := Htimes _ _ Hu). assert (C := Htimes _ _ Hw). lia. }
  assert (C3 : check_spec nodes ws spec = true).
  { apply forallb_forall. intros n Hn. destruct (Hsome n Hn) as [w Hw]. rewrite (proj2 (Hget n w) Hw).
    destruct (Hteam n w Hw) as (ct & _ & E & Hal & _). unfold contractor_enabled.
    destruct (sp_contractors (spec n)) as [|c l]; [reflexivity|]. destruct Hal as [Hal|Hal]; [discriminate|].
    apply existsb_exists. exists (ct_id ct). split; [exact Hal|]. rewrite E. apply Nat.eqb_refl. }
  assert (C4 : check_durations g ws = true).
  { apply forallb_forall. intros [n w] Hx. apply Hin in Hx. cbn [fst snd].
    destruct (u_service (g_unit g n)) eqn:Es; [|reflexivity]. rewrite (Hserv n w Hx Es).
    unfold tsub. rewrite Z.sub_diag. reflexivity. }
  assert (C5 : check_reqs g nodes ws = true).
  { apply forallb_forall. intros [n w] Hx. apply Hin in Hx. apply andb_true_iff. split.
    - apply existsb_exists. exists n. split; [apply Hnodes; eapply in_sd_key; eauto|apply Nat.eqb_refl].
    - apply forallb_forall. intros k Hk. cbn [fst snd] in *. destruct (Hteam n w Hx) as (ct & _ & _ & _ & HF & _).
      assert (Hr : exists r, In r (u_reqs (g_unit g n)) /\ r_kind r = w_kind k /\ r_min r <= w_count k <= r_max r).
      { clear -HF Hk. induction HF as [|r x rs xs Hrx HF IH]; [destruct Hk|]. destruct Hk as [->|Hk].
        - exists r. split; [left; reflexivity|]. intuition.
        - destruct (IH Hk) as (r' & ? & ?). exists r'. split; [right; assumption|assumption]. }
      destruct Hr as (r & R1 & R2 & R3). unfold req_of.
      destruct (find _ _) as [r'|] eqn:Ef.
      + apply find_some in Ef as [F1 F2]. apply in_rev in F1. apply Nat.eqb_eq in F2.
        assert (r' = r); [|subst r'; lia].
        destruct (Hreq n) as [Hnr _]. clear -F1 F2 R1 R2 Hnr. induction (u_reqs (g_unit g n)) as [|x l IH]; [destruct R1|].
        simpl in *. inversion Hnr; subst. destruct F1 as [->|F1], R1 as [->|R1]; auto.
        * exfalso. apply H1. rewrite F2, <- R2. apply in_map. exact R1.
        * exfalso. apply H1. rewrite R2, <- F2. apply in_map. exact F1.
      + exfalso. eapply find_none in Ef; [|apply in_rev in R1; exact R1]. cbn in Ef. rewrite R2, Nat.eqb_refl in Ef. discriminate. }
  assert (C6 : check_capacity ws cs = true).
  { apply capacity_check_exact; [exact Hcs| | |].
    - intros n w Hx. apply Hin in Hx. apply (Htimes n w Hx).
    - intros n w Hx. apply Hin in Hx. destruct (Hteam n w Hx) as (ct & Hct & _ & _ & HF & Hkn). exists ct. split; [exact Hct|].
      intros k Hk. split; [|split; [apply Hkn; exact Hk|]].
      + clear -HF Hk. induction HF as [|r x rs xs Hrx HF IH]; [destruct Hk|]. destruct Hk as [->|Hk]; [tauto|auto].
      + clear -HF Hk. induction HF as [|r x rs xs Hrx HF IH]; [destruct Hk|]. destruct Hk as [->|Hk]; [tauto|auto].
    - intros ct k n t' Hct Hk. eapply Z.le_trans; [|apply (Hcap ct k n t' Hct Hk)].
      assert (E : forall l1 l2, Permutation l1 l2 -> busy (schedule_bookings l1) (ct_id ct, k) t' = busy (schedule_bookings l2) (ct_id ct, k) t').
      { clear. induction 1 as [|x l l' _ IH|x y l|l l' l'' _ IH1 _ IH2]; [reflexivity| | |congruence].
        - change (x :: l) with ([x] ++ l). change (x :: l') with ([x] ++ l'). rewrite !sb_app, !busy_app. lia.
        - change (y :: x :: l) with ([y] ++ [x] ++ l). change (x :: y :: l) with ([x] ++ [y] ++ l).
          rewrite !sb_app, !busy_app. lia. }
      rewrite (E _ _ Hp). lia. }
  rewrite C1, C2, C3, C4, C5, C6. apply orb_true_r.
Qed.

(** C18. The schedule of the list scheduler, in any order of its rows, passes all checks
    of the validator. Lags are not negative, nothing depends on a work outside the graph,
    the works of a chain have the same requirements and a contractor allowed for the head
    is allowed for every work of its chain; the specification fixes no teams and times. *)
Definition validator_conditions (g : graph) (est : nat -> list worker -> Z) (spec : nat -> work_spec)
           (nodes : list nat) (chains : list (list nat)) : Prop :=
  nodes <> [] /\
  (forall e, In e (g_edges g) -> 0 <= e_lag e) /\
  (forall e, In e (g_edges g) -> In (e_from e) (concat chains) /\ In (e_to e) (concat chains)) /\
  (forall n, sp_time (spec n) = None /\ sp_workers (spec n) = []) /\
  (forall hd r n, In (hd :: r) chains -> In n r -> u_reqs (g_unit g n) = u_reqs (g_unit g hd)) /\
  (forall hd r n, In (hd :: r) chains -> In n r -> sp_contractors (spec n) <> [] ->
     sp_contractors (spec hd) <> [] /\ forall c, In c (sp_contractors (spec hd)) -> In c (sp_contractors (spec n))) /\
  (forall n team, u_service (g_unit g n) = true -> u_reqs (g_unit g n) = [] /\ est n team = 0).

Lemma concat_chain {A} (cs : list (list A)) x : In x (concat cs) -> exists c, In c cs /\ In x c.
Proof. intros H. apply in_concat in H as (c & ? & ?). eauto. Qed.

Lemma feasible_accepted g est cs spec nodes chains all sd ws :
  contractors_ok cs -> (forall n, reqs_ok (reqs_of g n)) ->
  chains_of g nodes = Some chains -> NoDup (concat chains) ->
  validator_conditions g est spec nodes chains ->
  (forall n, In n all <-> In n (concat chains)) -> Permutation ws sd ->
  map fst sd = rev (concat chains) ->
  (forall n w, In (n, w) sd -> 0 <= sw_start w <= sw_finish w /\ sw_finish w <= TIME_INF) ->
  (forall e wu wv, In e (g_edges g) -> In (e_from e, wu) sd -> In (e_to e, wv) sd -> sw_finish wu <= sw_start wv) ->
  (forall hd r n w, In (hd :: r) chains -> In n (hd :: r) -> In (n, w) sd -> staffed g cs spec hd w) ->
  (forall n w, In (n, w) sd -> u_service (g_unit g n) = true -> sw_finish w = sw_start w) ->
  (forall ct k n t, In ct cs -> In (k, n) (ct_workers ct) -> busy (schedule_bookings sd) (ct_id ct, k) t <= n) ->
  validate_schedule g all ws cs spec = true.
Proof.
  intros Hcs Hreqs Hch Hnd (V1 & V2 & V3 & V4 & V5 & V6 & V7) Hall Hp Hkeys Htimes Hprec Hteam Hserv Hcap.
  assert (Hin : forall n w, In (n, w) sd -> In n (concat chains)).
  { intros n w H. apply in_sd_key in H. rewrite Hkeys in H. apply in_rev in H. exact H. }
  assert (Hheads : forall c, In c chains -> exists hd r, c = hd :: r).
  { clear -Hch. revert chains Hch. induction nodes as [|n nodes IH]; simpl; intros chains H c Hc; [injection H as <-; destruct Hc|].
    destruct (chain_of g n) as [d|] eqn:E; [|discriminate]. destruct (chains_of g nodes) as [ds|]; [|discriminate].
    injection H as <-. destruct Hc as [<-|Hc]; [|eapply IH; eauto]. apply chain_head in E as [r ->]. eauto. }
  apply validator_accepts with (sd := sd); auto.
  - rewrite Hkeys. apply NoDup_rev. exact Hnd.
  - intros ->. simpl in Hkeys. destruct nodes as [|n nodes]; [congruence|]. simpl in Hch.
    destruct (chain_of g n) as [d|] eqn:E; [|discriminate]. destruct (chains_of g nodes) as [ds|]; [|discriminate].
    injection Hch as <-. apply chain_head in E as [r ->]. simpl in Hkeys. destruct (rev _) ; discriminate.
  - intros n. rewrite Hall, Hkeys, <- in_rev. tauto.
  - intros e He _. apply Hall. apply V3. exact He.
  - intros n w H. apply (Htimes n w H).
  - intros n w H. destruct (concat_chain _ _ (Hin n w H)) as (c & Hc & Hn). destruct (Hheads c Hc) as (hd & r & ->).
    assert (Er : u_reqs (g_unit g n) = u_reqs (g_unit g hd)) by (destruct Hn as [<-|Hn]; [reflexivity|eapply V5; eauto]).
    destruct (Hteam hd r n w Hc Hn H) as (ct & T1 & T2 & T3 & T4). destruct (V4 hd) as [_ Hw].
    exists ct. split; [exact T1|]. split; [exact T2|]. rewrite Er. split; [|split].
    + destruct Hn as [<-|Hn]; [exact T3|]. destruct (sp_contractors (spec n)) as [|x l] eqn:Es; [auto|].
      assert (Hne : sp_contractors (spec n) <> []) by congruence.
      destruct (V6 hd r n Hc Hn Hne) as [N1 N2]. right. rewrite <- Es. apply N2. destruct T3 as [T3|T3]; [contradiction|exact T3].
    + clear -T4 Hw. induction T4 as [|x k l l' (A & B & C & m & _ & D) T4 IH]; constructor; [|exact IH].
      specialize (D Hw). intuition.
    + clear -T4. intros k Hk. induction T4 as [|x k' l l' (A & B & C & m & D & _) T4 IH]; [destruct Hk|].
      destruct Hk as [->|Hk]; [|auto]. rewrite B. apply in_map_iff. exists (r_kind x, m). auto.
Qed.

Lemma tadd_ge a l : a <= TIME_INF -> 0 <= l -> a <= tadd a l.
Proof. intros Ha Hl. unfold tadd. destruct (set_time_cases (a + l)) as [[E R]|[[R E]|[R E]]]; rewrite E; inf; lia. Qed.

(** Over the interval timeline every work starts after all its predecessors end. *)
Lemma momentum_precedence g est optimize cs spec apt nodes chains sd s :
    contractors_ok cs -> estimator_ok est ->
    (forall n c sd s, optimizer_ok (optimize n c sd s)) ->
    (forall n, reqs_ok (reqs_of g n)) -> (forall n, 0 <= volume_of g n) -> (forall n, spec_ok (spec n)) ->
    0 <= apt <= TIME_INF ->
    chains_of g nodes = Some chains -> NoDup (concat chains) -> Z.of_nat (length nodes) < TIME_INF ->
    (forall e, In e (g_edges g) -> comes_before (concat chains) (e_from e) (e_to e)) ->
    validator_conditions g est spec nodes chains ->
    momentum_build g est optimize cs spec apt nodes = Done (sd, s) ->
    forall e wu wv, In e (g_edges g) -> In (e_from e, wu) sd -> In (e_to e, wv) sd -> sw_finish wu <= sw_start wv.
Proof.
  intros Hcs Hest Hopt Hreqs Hvol Hspec Hapt Hch Hnd Hlen Htopo HV H.
  assert (HV' := HV). destruct HV' as (V1 & V2 & V3 & V4 & V5 & V6 & V7).
  destruct (momentum_schedule_feasible g est optimize cs spec apt nodes chains sd s Hcs Hest Hopt Hreqs Hvol Hspec Hapt Hch Hnd Hlen
              (fun e He _ _ => Htopo e He) H) as (F1 & F2 & F3 & F4 & F5 & F6).
  intros e wu wv He Hu Hv. destruct (V3 e He) as [Hcu Hcv].
  destruct (concat_chain _ _ Hcv) as (c & Hc & Hvc).
  destruct (in_dec Nat.eq_dec (e_from e) c) as [Huc|Huc].
  + destruct (F4 c (e_from e) (e_to e) wu wv Hc) as [X _]; auto.
    eapply chain_order; eauto.
  + eapply Z.le_trans; [|apply (F3 e wu wv He Hu Hv)].
    * apply tadd_ge; [apply (F2 _ _ Hu)|apply V2; exact He].
    * intros (c' & Hc' & A & B). assert (c' = c); [|congruence].
      clear -Hnd Hc Hc' Hvc B. induction chains as [|d ds IH]; [destruct Hc|]. simpl in *.
      assert (Hno : forall x, In x d -> In x (concat ds) -> False) by (intros x; apply nodup_app_disj; exact Hnd).
      destruct Hc as [->|Hc], Hc' as [->|Hc']; auto.
      -- exfalso. apply (Hno (e_to e) Hvc). apply in_concat. eauto.
      -- exfalso. apply (Hno (e_to e) B). apply in_concat. eauto.
      -- apply IH; auto. eapply nodup_app_r; eauto.
    * clear F1 F2 F3 F4 F5 F6. assert (exists hd r, c = hd :: r) as (hd & r & ->).
      { destruct c as [|hd r]; [destruct Hvc|eauto]. }
      exists hd, r. split; [exact Hc|]. split; [exact Hvc|]. left. apply V4.
Qed.

Theorem momentum_schedule_validated :
  forall g est optimize cs spec apt nodes chains sd s all ws,
    contractors_ok cs -> estimator_ok est ->
    (forall n c sd s, optimizer_ok (optimize n c sd s)) ->
    (forall n, reqs_ok (reqs_of g n)) -> (forall n, 0 <= volume_of g n) -> (forall n, spec_ok (spec n)) ->
    0 <= apt <= TIME_INF ->
    chains_of g nodes = Some chains -> NoDup (concat chains) -> Z.of_nat (length nodes) < TIME_INF ->
    (forall e, In e (g_edges g) -> comes_before (concat chains) (e_from e) (e_to e)) ->
    validator_conditions g est spec nodes chains ->
    momentum_build g est optimize cs spec apt nodes = Done (sd, s) ->
    (forall n, In n all <-> In n (concat chains)) -> Permutation ws sd ->
    validate_schedule g all ws cs spec = true.
Proof.
  intros g est optimize cs spec apt nodes chains sd s all ws Hcs Hest Hopt Hreqs Hvol Hspec Hapt Hch Hnd Hlen Htopo HV H Hall Hp.
  assert (HV' := HV). destruct HV' as (V1 & V2 & V3 & V4 & V5 & V6 & V7).
  destruct (momentum_schedule_feasible g est optimize cs spec apt nodes chains sd s Hcs Hest Hopt Hreqs Hvol Hspec Hapt Hch Hnd Hlen
              (fun e He _ _ => Htopo e He) H) as (F1 & F2 & F3 & F4 & F5 & F6).
  assert (Hd := momentum_durations g est optimize cs spec apt nodes sd s (fun n => proj1 (V4 n)) H).
  eapply feasible_accepted; eauto.
  - eapply momentum_precedence; eauto.
  - intros n w Hin Hs. rewrite (Hd n w Hin). destruct (V7 n [] Hs) as [-> _].
    assert (R := F2 n w Hin). unfold tadd. rewrite Z.add_0_r.
    destruct (set_time_cases (sw_start w)) as [[E' R']|[[R' E']|[R' E']]]; rewrite E'; inf; lia.
Qed.
Print Assumptions momentum_schedule_validated.

Theorem jit_schedule_validated :
  forall g est optimize cs spec apt nodes chains sd s all ws,
    contractors_ok cs -> estimator_ok est ->
    (forall n c sd s, optimizer_ok (optimize n c sd s)) ->
    (forall n, reqs_ok (reqs_of g n)) -> (forall n, 0 <= volume_of g n) -> (forall n, spec_ok (spec n)) ->
    0 <= apt <= TIME_INF ->
    chains_of g nodes = Some chains -> NoDup (concat chains) ->
    (forall e, In e (g_edges g) -> comes_before (concat chains) (e_from e) (e_to e)) ->
    validator_conditions g est spec nodes chains ->
    jit_build g est optimize cs spec apt nodes = Done (sd, s) ->
    (forall n, In n all <-> In n (concat chains)) -> Permutation ws sd ->
    validate_schedule g all ws cs spec = true.
Proof.
  intros g est optimize cs spec apt nodes chains sd s all ws Hcs Hest Hopt Hreqs Hvol Hspec Hapt Hch Hnd Htopo HV H Hall Hp.
  assert (HV' := HV). destruct HV' as (V1 & V2 & V3 & V4 & V5 & V6 & V7).
  assert (Hfit : forall n, spec_fits cs (reqs_of g n) (spec n)).
  { intros n. destruct (V4 n) as [_ W]. split; rewrite W; [intros ct k m x _ _ []|].
    intros E r Hr. destruct (reqs_of g n); [destruct Hr|discriminate]. }
  destruct (jit_schedule_feasible g est optimize cs spec apt nodes chains sd s Hcs Hest Hopt Hreqs Hvol Hspec Hfit Hapt Hch Hnd
              (fun e He _ _ => Htopo e He) H) as (F1 & F2 & F3 & F4 & F5 & F6).
  assert (Hd := jit_durations g est optimize cs spec apt nodes sd s (fun n => proj1 (V4 n)) H).
  eapply feasible_accepted; eauto.
  - intros e wu wv He Hu Hv. eapply Z.le_trans; [|apply (F3 e wu wv He Hu Hv)].
    apply tadd_ge; [apply (F2 _ _ Hu)|apply V2; exact He].
  - intros n w Hin Hs. rewrite (Hd n w Hin). destruct (V7 n (sw_team w) Hs) as [_ ->].
    assert (R := F2 n w Hin). unfold tadd. rewrite Z.add_0_r.
    destruct (set_time_cases (sw_start w)) as [[E' R']|[[R' E']|[R' E']]]; rewrite E'; inf; lia.
Qed.
Print Assumptions jit_schedule_validated.

(** The example graph meets the conditions with an estimator that gives service works
    no time. *)
Definition vx_est (n : nat) (team : list worker) : Z :=
  if u_service (g_unit sx_graph n) then 0 else sx_est n team.
Example vx_conditions :
  estimator_ok vx_est /\ validator_conditions sx_graph vx_est sx_spec sx_nodes sx_chains /\
  (forall e, In e (g_edges sx_graph) -> comes_before (concat sx_chains) (e_from e) (e_to e)) /\
  (exists r, momentum_build sx_graph vx_est sx_optimize sx_contractors sx_spec 0 sx_nodes = Done r) /\
  (exists r, jit_build sx_graph vx_est jx_optimize sx_contractors sx_spec 0 sx_nodes = Done r).
Proof.
  split; [|split; [|split; [|split]]].
  - intros n team. unfold vx_est. assert (H := proj1 (proj2 sx_hypotheses) n team). destruct (u_service _); [inf; lia|exact H].
  - repeat match goal with |- _ /\ _ => split | |- validator_conditions _ _ _ _ _ => unfold validator_conditions end.
    + discriminate.
    + intros e He. simpl in He. repeat destruct He as [<-|He]; try destruct He; simpl; lia.
    + intros e He. simpl in He. repeat destruct He as [<-|He]; try destruct He; simpl; tauto.
    + intros n. unfold sx_spec. destruct (Nat.eqb n 4); auto.
    + intros hd r n H Hn. simpl in H. repeat destruct H as [[= <- <-]|H]; try destruct H; simpl in Hn; intuition subst; reflexivity.
    + intros hd r n H Hn. simpl in H. repeat destruct H as [[= <- <-]|H]; try destruct H; simpl in Hn; intuition subst; simpl in *; congruence.
    + intros n team Hs. unfold vx_est. rewrite Hs. split; [|reflexivity]. destruct n as [|[|[|[|[|n]]]]]; try reflexivity; discriminate.
  - intros e He. simpl in He. repeat destruct He as [<-|He]; try destruct He; cbn [sx_chains concat app e_from e_to]; before.
  - eexists. vm_compute. reflexivity.
  - eexists. vm_compute. reflexivity.
Qed.
