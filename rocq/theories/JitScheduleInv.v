(** The list scheduler over the release-time timeline. *)
From Coq Require Import ZArith List Bool Lia Arith Permutation.
From Coq Require Import ZifyBool ZifyNat.
From Verif Require Import TimeModel MomentumModel MomentumSpec MomentumHistory MomentumTeamProofs
  JITModel JITHistory JITProofs GraphModel ScheduleModel ScheduleSpec ContractorProofs TeamProofs ScheduleProofs
  SchedulePoolProofs ScheduleInv.
Import ListNotations.
Local Open Scope Z_scope.

(** ** Precedence, whatever is passed in *)

Lemma prec_ok_cons g n w sd : starts_after_predecessors g sd ->
  min_start_time g sd n <= sw_start w -> starts_after_predecessors g ((n, w) :: sd).
Proof.
  intros H Hm l1 v wv l2 E e wu He Hto Hu. destruct l1 as [|x l1]; simpl in E.
  - injection E as -> -> ->. eapply Z.le_trans; [|exact Hm]. rewrite <- Hto. apply min_start_ge; assumption.
  - injection E as _ E. eapply H; eauto.
Qed.

Lemma jit_place_prec g est team c : forall chain curr times sd fin sd',
  starts_after_predecessors g sd -> jit_place g est team c curr chain times sd = Some (fin, sd') -> starts_after_predecessors g sd'.
Proof.
  induction chain as [|n chain IH]; intros curr times sd fin sd' Hp H; simpl in H.
  - injection H as _ <-. exact Hp.
  - destruct (match inseparable_parent g n with Some _ => _ | None => true end); [|discriminate].
    destruct (match times with Some _ => _ | None => _ end) as [t tr].
    eapply IH; [|exact H]. apply prec_ok_cons; [exact Hp|]. simpl. rewrite tmax_spec. lia.
Qed.

Lemma jit_schedule_prec g est sd s n team c sp start apt sd' s' :
  starts_after_predecessors g sd -> jit_schedule g est sd s n team c sp start apt = Some (sd', s') ->
  starts_after_predecessors g sd'.
Proof.
  intros Hp H. unfold jit_schedule in H. destruct (chain_of g n) as [chain|]; [|discriminate].
  destruct (match start with Some a => Some a | None => _ end) as [st|]; [|discriminate].
  destruct (jit_place _ _ _ _ _ _ _ _) as [[fin sd1]|] eqn:E; [|discriminate].
  destruct (jit_update _ _ _ _); [|discriminate]. injection H as <- <-. eapply jit_place_prec; eauto.
Qed.

Lemma jit_calls_prec g est : forall calls sd s sd' s', starts_after_predecessors g sd ->
  jit_calls g est calls sd s = Some (sd', s') -> starts_after_predecessors g sd'.
Proof.
  induction calls as [|c calls IH]; intros sd s sd' s' Hp H; simpl in H; [injection H as <- _; exact Hp|].
  destruct (jit_schedule _ _ _ _ _ _ _ _ _ _) as [[sd1 s1]|] eqn:E; [|discriminate].
  eapply IH; [|exact H]. eapply jit_schedule_prec; eauto.
Qed.

(** ** Shape of the placement *)

Lemma jit_place_shape g est team c : estimator_ok est -> forall chain curr times sd fin sd',
  match times with Some l => Forall (fun t => 0 <= t) l | None => True end -> curr <= TIME_INF ->
  jit_place g est team c curr chain times sd = Some (fin, sd') ->
  exists new, sd' = rev new ++ sd /\ map fst new = chain /\ consecutive team c curr new fin /\ fin <= TIME_INF.
Proof.
  intros Hest. induction chain as [|n chain IH]; intros curr times sd fin sd' Ht Hc H; simpl in H.
  - injection H as <- <-. exists []. simpl. auto.
  - destruct (match inseparable_parent g n with Some _ => _ | None => true end); [|discriminate].
    assert (Hmin := min_start_range g sd n).
    assert (He := Hest n team).
    set (start := tmax (tadd curr 0) (min_start_time g sd n)) in *.
    assert (Hs : curr <= start <= TIME_INF).
    { unfold start. rewrite tmax_spec. assert (A := tadd_ge curr 0 ltac:(lia) Hc).
      assert (B : tadd curr 0 <= TIME_INF) by apply set_time_range. lia. }
    clearbody start.
    assert (Ht' : forall t tr, (match times with None => (est n team, None) | Some [] => (est n team, Some []) | Some (t :: tr) => (t, Some tr) end) = (t, tr) ->
        0 <= t /\ match tr with Some l => Forall (fun t => 0 <= t) l | None => True end).
    { intros t tr E. destruct times as [[|t0 tr0]|]; injection E as <- <-; [split; [lia|constructor]| |split; [lia|exact I]].
      inversion Ht; subst. auto. }
    destruct (match times with Some _ => _ | None => _ end) as [t tr].
    destruct (Ht' t tr eq_refl) as [H0 Htr].
    assert (R : tadd start t <= TIME_INF) by apply set_time_range.
    assert (G := tadd_ge start t H0 (proj2 Hs)).
    destruct (IH _ _ _ _ _ Htr R H) as (new & A1 & A2 & A3 & A4).
    exists ((n, SW start (tadd start t) team c) :: new). split; [rewrite A1; simpl; rewrite <- app_assoc; reflexivity|].
    split; [simpl; congruence|]. split; [|exact A4]. simpl. repeat split; auto; lia.
Qed.

(** ** Release times stay finite *)

Definition times_le (B : Z) (tl : jtimeline) : Prop :=
  forall a st x, jt_get tl a = Some st -> In x st -> fst x <= B.

Lemma grab_le B : forall l needed acc r, (forall x, In x l -> fst x <= B) -> acc <= B -> grab needed acc l = Some r -> r <= B.
Proof.
  induction l as [|[t c] l IH]; intros needed acc r Hl Ha H; simpl in H; destruct (needed <=? 0).
  - injection H as <-. exact Ha.
  - discriminate.
  - injection H as <-. exact Ha.
  - eapply IH; [| |exact H]; [intros x Hx; apply Hl; right; exact Hx|]. rewrite tmax_spec.
    assert (A := Hl (t, c) (or_introl eq_refl)). simpl in A. lia.
Qed.
Lemma last_in {A} (l : list A) d : l <> [] -> In (last l d) l.
Proof. induction l as [|x [|y l] IH]; intros H; [congruence|left; reflexivity|right; apply IH; discriminate]. Qed.
Lemma find_agents_le B ind tl : times_le B tl -> forall team acc r, acc <= B ->
  find_agents_time ind team tl acc = Some r -> r <= B.
Proof.
  intros Ht. induction team as [|w team IH]; intros acc r Ha H; simpl in H; [injection H as <-; exact Ha|].
  destruct (jt_get tl _) as [st|] eqn:Eg; [|discriminate].
  destruct (agent_time ind (w_count w) st acc) as [t|] eqn:Et; [|discriminate].
  eapply IH; [|exact H]. unfold agent_time in Et. destruct ind.
  - destruct st as [|x st]; [discriminate|].
    assert (Et' : tmax acc (fst (last (x :: st) x)) = t) by congruence. rewrite tmax_spec in Et'.
    assert (A := Ht _ _ _ Eg (last_in (x :: st) x ltac:(discriminate))). lia.
  - eapply grab_le; [|exact Ha|exact Et]. intros x Hx. apply in_app_or in Hx. eapply Ht; [exact Eg|tauto].
Qed.
Lemma consume_times B : forall l n l', (forall x, In x l -> fst x <= B) -> consume n l = Some l' -> forall x, In x l' -> fst x <= B.
Proof.
  induction l as [|[t c] l IH]; intros n l' Hl H x Hx; simpl in H; destruct (n <=? 0).
  - injection H as <-. auto.
  - discriminate.
  - injection H as <-. auto.
  - destruct (_ || _).
    + injection H as <-. destruct Hx as [<-|Hx]; [apply (Hl (t, c)); left; reflexivity|apply Hl; right; exact Hx].
    + eapply IH; [|exact H|exact Hx]. intros y Hy. apply Hl. right; exact Hy.
Qed.
Lemma bubble_in x : forall l y, In y (bubble x l) -> y = x \/ In y l.
Proof.
  induction l as [|z l IH]; intros y H; simpl in H; [destruct H as [<-|[]]; auto|].
  destruct (fst z <? fst x).
  - destruct H as [<-|H]; [right; left; reflexivity|]. apply IH in H as [H|H]; [auto|right; right; exact H].
  - destruct H as [<-|H]; auto.
Qed.
Lemma jt_get_set_cases tl a s b st : jt_get (jt_set tl a s) b = Some st -> st = s \/ jt_get tl b = Some st.
Proof.
  induction tl as [|[c s0] tl IH]; simpl; [discriminate|]. destruct (agent_eqb c a); simpl.
  - destruct (agent_eqb c b); [intros [= <-]; auto|auto].
  - destruct (agent_eqb c b); auto.
Qed.
Lemma jit_update_times B ind fin : fin <= B -> forall team tl tl', times_le B tl ->
  jit_update ind fin team tl = Some tl' -> times_le B tl'.
Proof.
  intros Hf. induction team as [|w team IH]; intros tl tl' Ht H; simpl in H; [injection H as <-; exact Ht|].
  destruct (jt_get tl _) as [st|] eqn:Eg; [|discriminate].
  destruct (update_stack ind fin (w_count w) st) as [st'|] eqn:Eu; [|discriminate].
  eapply IH; [|exact H]. intros b sb x Hb Hx. apply jt_get_set_cases in Hb as [->|Hb]; [|eapply Ht; eauto].
  unfold update_stack in Eu. destruct ind.
  - injection Eu as <-. destruct Hx as [<-|[]]. exact Hf.
  - destruct (consume (w_count w) st) as [st1|] eqn:Ec; [|discriminate]. injection Eu as <-.
    apply bubble_in in Hx as [->|Hx]; [exact Hf|]. eapply consume_times; [|exact Ec|exact Hx].
    intros y Hy. eapply Ht; eauto.
Qed.
Lemma jit_init_times B p : 0 <= B -> times_le B (jit_init p).
Proof.
  intros HB a st x. induction p as [|[b n] p IH]; simpl; [discriminate|].
  destruct (agent_eqb b a); [intros [= <-] [<-|[]]; exact HB|exact IH].
Qed.
Lemma jit_init_get p a st : jt_get (jit_init p) a = Some st -> exists cap, capacity p a = Some cap /\ st = [(0, cap)].
Proof.
  induction p as [|[[c k] n] p IH]; simpl; [discriminate|]. unfold agent_eqb. simpl.
  destruct (Nat.eqb c (fst a) && Nat.eqb k (snd a)); [intros [= <-]; eauto|exact IH].
Qed.

(** ** Teams within the workforce *)
Lemma team_within_of cs (spec : nat -> work_spec) n ct t (reqs : list req) : contractors_ok cs -> spec_fits cs reqs (spec n) ->
  team_ok t -> t = team_of_contractor (ct_id ct) (combine (map r_kind reqs) (map w_count (to_workers t))) ->
  (sp_contractors (spec n) = [] \/ In (ct_id ct) (sp_contractors (spec n))) ->
  Forall2 (fun r k => w_contractor k = ct_id ct /\ w_kind k = r_kind r /\ 0 <= w_count k /\
       exists cap, capacity (pool_of cs) (ct_id ct, r_kind r) = Some cap /\
       count_ok (sp_workers (spec n)) (Nat.eqb (length (sp_workers (spec n))) (length reqs))
                (Bd (r_kind r) (r_min r) (Z.min (r_max r) cap) cap) (w_count k)) reqs (to_workers t) ->
  team_within (pool_of cs) t.
Proof.
  intros Hcs [Hf _] [Hnd Hpos] _ Hen HF. split; [exact Hnd|]. intros [c k] m Hin.
  assert (Hw : In (Wk c k m) (to_workers t)) by (unfold to_workers; apply in_map_iff; exists ((c, k), m); auto).
  revert HF Hw. generalize (Nat.eqb (length (sp_workers (spec n))) (length reqs)) as full.
  generalize (to_workers t) as tm. induction reqs as [|r rs IH]; intros tm full HF Hw; [inversion HF; subst; destruct Hw|].
  inversion HF as [|? w ? tm1 (W1 & W2 & W3 & cap & W4 & W5) HF']; subst.
  destruct Hw as [->|Hw]; [|eapply IH; eauto]. simpl in *. subst c k. exists cap. split; [exact W4|]. split; [exact W3|].
  unfold count_ok in W5. simpl in W5. destruct (assoc_get (sp_workers (spec n)) (r_kind r)) as [x|] eqn:Ea; [|lia].
  destruct (_ || _); [|lia]. subst x. apply assoc_get_in in Ea.
  destruct (capacity_pool_inv _ _ _ _ W4) as (ct' & C1 & C2 & C3).
  eapply Hf; [exact C1| |exact Ea|exact C3]. rewrite C2. exact Hen.
Qed.

(** ** The loop *)
Record jtinv (g : graph) (p : pool) (staff : nat -> swork -> Prop) (chains : list (list nat))
       (sd : sched) (s : jtimeline) (h : history) : Prop := {
  j_keys : map fst sd = rev (concat chains);
  j_inv : jinv p s;
  j_cov : jcovers p h s;
  j_le : times_le TIME_INF s;
  j_load : forall a t, busy (schedule_bookings sd) a t <= busy h a t;
  j_times : forall n w, In (n, w) sd -> 0 <= sw_start w <= sw_finish w /\ sw_finish w <= TIME_INF;
  j_team : forall hd r n w, In (hd :: r) chains -> In n (hd :: r) -> In (n, w) sd -> staff hd w;
  j_prec : starts_after_predecessors g sd;
  j_chain : forall c u v wu wv, In c chains -> comes_before c u v -> In (u, wu) sd -> In (v, wv) sd ->
     sw_finish wu <= sw_start wv /\ sw_team wu = sw_team wv /\ sw_contractor wu = sw_contractor wv
}.
Notation jsinv g cs spec := (jtinv g (pool_of cs) (staffed g cs spec)).

Section JitPlace.
  Variables (g : graph) (est : nat -> list worker -> Z) (p : pool) (apt : Z).
  Hypothesis Hest : estimator_ok est.
  Hypothesis Hvol : forall n, 0 <= volume_of g n.

  (** the start is late enough for the team *)
  Definition late_enough (ind : bool) (t : list (agent * Z)) (s : jtimeline) (s0 : Z) : Prop :=
    (ind = false -> forall a n st, In (a, n) t -> jt_get s a = Some st -> n <= released st s0) /\
    (ind = true -> forall a n st, In (a, n) t -> jt_get s a = Some st -> forall x, In x st -> fst x <= s0).

  Lemma late_mono ind t s a b : jinv p s -> team_within p t -> a <= b -> late_enough ind t s a -> late_enough ind t s b.
  Proof.
    intros Hi [_ Hw] Hab [H1 H2]. split.
    - intros E ag n st Hin Hg. specialize (H1 E ag n st Hin Hg). destruct (Hw _ _ Hin) as (cap & Hc & _).
      assert (A := Hi ag). rewrite Hc in A. destruct A as (st' & Hg' & Hs).
      assert (st' = st) by congruence. subst st'. assert (B := released_mono st a b (si_nonneg _ _ Hs) Hab). lia.
    - intros E ag n st Hin Hg x Hx. specialize (H2 E ag n st Hin Hg x Hx). lia.
  Qed.
  Lemma late_init ind t s0 : 0 <= s0 -> team_within p t -> late_enough ind t (jit_init p) s0.
  Proof.
    intros H0 [_ Hw]. split; intros E a n st Hin Hg; apply jit_init_get in Hg as (cap & Hc & ->).
    - destruct (Hw _ _ Hin) as (cap' & Hc' & Hn). simpl. destruct (Z.leb_spec 0 s0); [|lia].
      assert (cap = cap') by congruence. lia.
    - intros x [<-|[]]. exact H0.
  Qed.

  Lemma jit_schedule_spec sd s n t c sp st sd' s' h :
    spec_ok sp -> jinv p s -> jcovers p h s -> times_le TIME_INF s -> team_within p t -> 0 <= st <= TIME_INF ->
    late_enough (sp_independent sp) t s st ->
    jit_schedule g est sd s n (to_workers t) c sp (Some st) apt = Some (sd', s') ->
    exists chain new fin, chain_of g n = Some chain /\ sd' = rev new ++ sd /\ map fst new = chain /\
      consecutive (to_workers t) c st new fin /\ fin <= TIME_INF /\ jinv p s' /\ times_le TIME_INF s' /\
      jcovers p (map (fun w => (fst w, Bk st fin (snd w))) t ++ h) s'.
  Proof.
    intros [_ Hspt] Hi Hcov Hle Hw Hst [L1 L2] H. unfold jit_schedule in H.
    destruct (chain_of g n) as [chain|] eqn:Ech; [|discriminate].
    set (times := match sp_time sp with Some a => _ | None => None end) in H.
    destruct (jit_place _ _ _ _ _ _ _ _) as [[fin sd1]|] eqn:Ep; [|discriminate].
    assert (Ht : match times with Some l => Forall (fun t => 0 <= t) l | None => True end).
    { unfold times. destruct (sp_time sp) as [a|]; [|exact I].
      destruct (chain_head _ _ _ Ech) as [r Er].
      destruct (assigned_times_spec (map (volume_of g) chain) a) as (A1 & A2 & _); [rewrite Er; discriminate| |exact Hspt|exact A2].
      apply Forall_forall. intros v Hv. apply in_map_iff in Hv as (m & <- & _). apply Hvol. }
    destruct (jit_place_shape g est _ _ Hest _ _ _ _ _ _ Ht (proj2 Hst) Ep) as (new & A1 & A2 & A3 & A4).
    assert (Hf := consecutive_le _ _ _ _ _ A3).
    destruct (jit_update_spec p (sp_independent sp) fin st t s Hi Hw) as (s1 & U1 & U2 & _ & U3).
    rewrite U1 in H. injection H as <- <-.
    exists chain, new, fin. do 6 (split; [first [reflexivity|assumption]|]).
    split; [eapply jit_update_times; [exact A4|exact Hle|exact U1]|]. apply U3; auto.
  Qed.

  (** A chain placed one work after the other, with its team booked until the end. *)
  Lemma jplaced_inv_from staff n cid t st2 chains sd s h sd1 s1 c new fin :
    jtinv g p staff chains sd s h -> chain_of g n = Some c -> NoDup (concat (chains ++ [c])) ->
    team_ok t -> 0 <= st2 ->
    (forall w, sw_team w = to_workers t -> sw_contractor w = cid -> staff n w) ->
    sd1 = rev new ++ sd -> map fst new = c -> consecutive (to_workers t) cid st2 new fin -> fin <= TIME_INF ->
    jinv p s1 -> times_le TIME_INF s1 -> jcovers p (map (fun w => (fst w, Bk st2 fin (snd w))) t ++ h) s1 ->
    starts_after_predecessors g sd1 ->
    sd1 <> [] /\ exists h', jtinv g p staff (chains ++ [c]) sd1 s1 h' /\ covered sd h sd1 h'.
  Proof.
    intros [K I1 I2 I3 L T TM P C] Hch Hnd Ht Hst2 Hstaff A2 A3 A4 A5 A6 A7 A8 P1.
    destruct (chain_head g n c Hch) as [r Er'].
    assert (Hcat : concat (chains ++ [c]) = concat chains ++ c).
    { rewrite concat_app. simpl. rewrite app_nil_r. reflexivity. }
    rewrite Hcat in *.
    assert (Hold : forall m w, In (m, w) sd -> In m (concat chains)).
    { intros m w Hin. apply in_sd_key in Hin. rewrite K in Hin. apply in_rev in Hin. exact Hin. }
    assert (Hnew : forall m w, In (m, w) new -> In m c).
    { intros m w Hin. rewrite <- A3. apply (in_sd_key new m w Hin). }
    assert (Hcases : forall m w, In (m, w) sd1 -> In (m, w) new \/ In (m, w) sd).
    { intros m w Hin. rewrite A2 in Hin. apply in_app_or in Hin as [Hin|Hin]; [left; apply in_rev; exact Hin|auto]. }
    assert (Hdisj : forall m, In m (concat chains) -> In m c -> False).
    { intros m H1 H2. eapply nodup_app_disj; eauto. }
    split.
    { intros E. rewrite E in A2. assert (length (map fst new) = 0%nat); [|rewrite A3, Er' in H; discriminate].
      rewrite map_length. apply (f_equal (@length _)) in A2. rewrite app_length, rev_length in A2. simpl in A2. lia. }
    exists (map (fun w => (fst w, Bk st2 fin (snd w))) t ++ h).
    assert (Hcv : covered sd h sd1 (map (fun w => (fst w, Bk st2 fin (snd w))) t ++ h)).
    { intros a m. rewrite A2, sb_app, !busy_app, sb_rev.
      assert (Hw : forall w, In w (to_workers t) -> 0 <= w_count w).
      { intros w Hw. apply in_to_workers in Hw. destruct Ht as [_ Ht]. eapply Ht; eauto. }
      assert (B := consecutive_busy (to_workers t) cid a m Hw new st2 fin A4).
      rewrite <- busy_team in B.
      replace (map (fun w => (fst w, Bk st2 fin (snd w))) t) with
        (map (fun w => ((w_contractor w, w_kind w), Bk st2 fin (w_count w))) (to_workers t)); [lia|].
      unfold to_workers. rewrite map_map. apply map_ext. intros [[x y] z]. reflexivity. }
    split; [|exact Hcv]. constructor.
    - rewrite A2, map_app, map_rev, A3, K. rewrite <- rev_app_distr, Hcat. reflexivity.
    - exact A6.
    - exact A8.
    - exact A7.
    - intros a m. specialize (L a m). specialize (Hcv a m). lia.
    - intros m w Hin. apply Hcases in Hin as [Hin|Hin]; [|apply (T m w Hin)].
      destruct (consecutive_in _ _ _ _ _ _ _ A4 Hin) as (B1 & B2 & _). lia.
    - intros hd r0 m w Hc Hm Hin. apply in_app_or in Hc as [Hc|[Hc|[]]].
      + apply Hcases in Hin as [Hin|Hin].
        * exfalso. apply (Hdisj m); [eapply in_concat_elem; eauto|eapply Hnew; eauto].
        * eapply TM; eauto.
      + rewrite Er' in Hc. injection Hc as <- <-. apply Hcases in Hin as [Hin|Hin].
        * destruct (consecutive_in _ _ _ _ _ _ _ A4 Hin) as (_ & _ & B3 & B4).
          apply Hstaff; assumption.
        * exfalso. apply (Hdisj m); [eapply Hold; eauto|]. rewrite Er'. exact Hm.
    - exact P1.
    - intros c0 u v wu wv Hc Hcb Hu Hv.
      assert (Hin0 : In u c0 /\ In v c0).
      { destruct Hcb as (x & q & r1 & ->). split; apply in_or_app; right; [left; reflexivity|right; apply in_or_app; right; left; reflexivity]. }
      destruct Hin0 as [Hu0 Hv0]. apply in_app_or in Hc as [Hc|[Hc|[]]].
      + apply Hcases in Hu as [Hu|Hu]; [exfalso; apply (Hdisj u); [eapply in_concat_elem; eauto|eauto]|].
        apply Hcases in Hv as [Hv|Hv]; [exfalso; apply (Hdisj v); [eapply in_concat_elem; eauto|eauto]|].
        eapply C; eauto.
      + subst c0.
        apply Hcases in Hu as [Hu|Hu]; [|exfalso; apply (Hdisj u); eauto].
        apply Hcases in Hv as [Hv|Hv]; [|exfalso; apply (Hdisj v); eauto].
        destruct Hcb as (x & q & r1 & Ec). rewrite <- A3 in Ec.
        destruct (map_eq_app _ _ _ _ Ec) as (n1 & n2 & E1 & E2 & E3).
        destruct n2 as [|[u' wu'] n2]; [discriminate|]. simpl in E3. injection E3 as -> E3.
        destruct (map_eq_app _ _ _ _ E3) as (n3 & n4 & E4 & E5 & E6).
        destruct n4 as [|[v' wv'] n4]; [discriminate|]. simpl in E6. injection E6 as -> E6.
        assert (Hord := consecutive_order _ _ new st2 fin n1 u wu' n3 v wv' n4 A4 ltac:(congruence)).
        assert (HndN : NoDup (map fst new)).
        { rewrite A3. eapply nodup_app_r; exact Hnd. }
        assert (wu' = wu).
        { apply (nodup_key new u); [exact HndN| |exact Hu]. rewrite E1. apply in_or_app. right. left. reflexivity. }
        assert (wv' = wv).
        { apply (nodup_key new v); [exact HndN| |exact Hv]. rewrite E1, E4. apply in_or_app. right. right. apply in_or_app. right. left. reflexivity. }
        subst wu' wv'.
        destruct (consecutive_in _ _ _ _ _ _ _ A4 Hu) as (_ & _ & B3 & B4).
        destruct (consecutive_in _ _ _ _ _ _ _ A4 Hv) as (_ & _ & B5 & B6).
        split; [exact Hord|]. split; congruence.
  Qed.

  Lemma jplaced_inv staff n cid t st2 chains sd s h sd1 s1 c new fin :
    jtinv g p staff chains sd s h -> chain_of g n = Some c -> NoDup (concat (chains ++ [c])) ->
    team_ok t -> 0 <= st2 ->
    (forall w, sw_team w = to_workers t -> sw_contractor w = cid -> staff n w) ->
    sd1 = rev new ++ sd -> map fst new = c -> consecutive (to_workers t) cid st2 new fin -> fin <= TIME_INF ->
    jinv p s1 -> times_le TIME_INF s1 -> jcovers p (map (fun w => (fst w, Bk st2 fin (snd w))) t ++ h) s1 ->
    starts_after_predecessors g sd1 ->
    sd1 <> [] /\ exists h', jtinv g p staff (chains ++ [c]) sd1 s1 h'.
  Proof.
    intros. edestruct (jplaced_inv_from staff n cid t st2 chains sd s h sd1 s1 c new fin) as (A & h' & B & _); eauto.
  Qed.

  Lemma jplace_inv_from staff n cid sp t st2 chains sd s h sd1 s1 c :
    spec_ok sp -> jtinv g p staff chains sd s h -> chain_of g n = Some c -> NoDup (concat (chains ++ [c])) ->
    team_ok t -> team_within p t -> 0 <= st2 <= TIME_INF -> late_enough (sp_independent sp) t s st2 ->
    (forall w, sw_team w = to_workers t -> sw_contractor w = cid -> staff n w) ->
    jit_schedule g est sd s n (to_workers t) cid sp (Some st2) apt = Some (sd1, s1) ->
    sd1 <> [] /\ (exists h', jtinv g p staff (chains ++ [c]) sd1 s1 h' /\ covered sd h sd1 h') /\
    (forall m w, In (m, w) sd1 -> In (m, w) sd \/ st2 <= sw_start w) /\ incl sd sd1.
  Proof.
    intros Hsp HI Hch Hnd Ht Htw Hst2 Hlate Hstaff Em.
    destruct (jit_schedule_spec sd s n t cid sp st2 sd1 s1 h Hsp (j_inv _ _ _ _ _ _ _ HI) (j_cov _ _ _ _ _ _ _ HI) (j_le _ _ _ _ _ _ _ HI) Htw Hst2 Hlate Em)
      as (chain & new & fin & A1 & A2 & A3 & A4 & A5 & A6 & A7 & A8).
    rewrite Hch in A1. injection A1 as <-.
    destruct (jplaced_inv_from staff n cid t st2 chains sd s h sd1 s1 c new fin) as [B1 B2]; auto; [lia| |].
    { eapply jit_schedule_prec; [apply (j_prec _ _ _ _ _ _ _ HI)|exact Em]. }
    split; [exact B1|]. split; [exact B2|]. split; [|rewrite A2; apply incl_appr, incl_refl]. intros m w Hin. rewrite A2 in Hin.
    apply in_app_or in Hin as [Hin|Hin]; [right|left; exact Hin]. apply in_rev in Hin.
    destruct (consecutive_in _ _ _ _ _ _ _ A4 Hin) as (C1 & _). lia.
  Qed.

  Lemma jplace_inv staff n cid sp t st2 chains sd s h sd1 s1 c :
    spec_ok sp -> jtinv g p staff chains sd s h -> chain_of g n = Some c -> NoDup (concat (chains ++ [c])) ->
    team_ok t -> team_within p t -> 0 <= st2 <= TIME_INF -> late_enough (sp_independent sp) t s st2 ->
    (forall w, sw_team w = to_workers t -> sw_contractor w = cid -> staff n w) ->
    jit_schedule g est sd s n (to_workers t) cid sp (Some st2) apt = Some (sd1, s1) ->
    sd1 <> [] /\ exists h', jtinv g p staff (chains ++ [c]) sd1 s1 h'.
  Proof.
    intros. edestruct (jplace_inv_from staff n cid sp t st2 chains sd s h sd1 s1 c) as (A & (h' & B & _) & _); eauto.
  Qed.
End JitPlace.

Section JitLoop.
  Variables (g : graph) (est : nat -> list worker -> Z)
    (optimize : nat -> nat -> sched -> jtimeline -> list border -> option (list bool) -> list Z -> option (list Z))
    (cs : list contractor) (spec : nat -> work_spec) (apt : Z).
  Hypothesis Hcs : contractors_ok cs.
  Hypothesis Hest : estimator_ok est.
  Hypothesis Hopt : forall n c sd s, optimizer_ok (optimize n c sd s).
  Hypothesis Hreqs : forall n, reqs_ok (reqs_of g n).
  Hypothesis Hvol : forall n, 0 <= volume_of g n.
  Hypothesis Hspec : forall n, spec_ok (spec n).
  Hypothesis Hfit : forall n, spec_fits cs (reqs_of g n) (spec n).
  Hypothesis Hapt : 0 <= apt <= TIME_INF.

  Let jfind := jit_find g est.
  Let step := build_step jtimeline jfind (jit_schedule g est) (reqs_of g) optimize cs spec.
  Let loop := build_loop jtimeline jfind (jit_schedule g est) (reqs_of g) optimize cs spec.
  Let p := pool_of cs.

  Lemma jrunner_range sd s n c st ft tm :
    run_with_contractor jtimeline jfind (reqs_of g) optimize cs spec sd s n apt c = Done (st, ft, tm) ->
    - TIME_INF <= ft <= TIME_INF.
  Proof.
    unfold run_with_contractor. inf. destruct (get_worker_borders _ _ _) as [bs|].
    2: { intros [= <- <- <-]. unfold time_inf. apply set_time_range. }
    destruct (optimize_using_spec _ _ _ _) as [counts|]; [|discriminate].
    destruct (jfind _ _ _ _ _ _) as [[st' ft']|] eqn:Ef; [|discriminate]. intros [= <- <- <-].
    unfold jfind, jit_find in Ef. destruct sd; [injection Ef as <- <-; lia|].
    destruct (chain_of g n); [|discriminate]. destruct (find_agents_time _ _ _ _); [|discriminate].
    injection Ef as <- <-. apply set_time_range.
  Qed.

  Lemma jstep_inv_from is_first is_last n chains sd s h sd' s' c :
    jsinv g cs spec chains sd s h ->
    (is_first = true -> sd = [] /\ (s = jit_init p \/ reqs_of g n = [])) -> (is_first = false -> sd <> []) ->
    chain_of g n = Some c -> NoDup (concat (chains ++ [c])) ->
    step is_first is_last apt n sd s = Done (sd', s') ->
    sd' <> [] /\ (exists h', jsinv g cs spec (chains ++ [c]) sd' s' h' /\ covered sd h sd' h') /\
    (is_first = true -> forall m w, In (m, w) sd' -> apt <= sw_start w) /\ incl sd sd'.
  Proof.
    intros HI Hfirst Hnf Hch Hnd H. unfold step, build_step in H.
    destruct (run_contractor_search _ _ _) as [[[[st ft] ct] team]| |] eqn:Es; try discriminate.
    apply contractor_search_best in Es; [|intros c0 st0 ft0 tm0; apply jrunner_range]. destruct Es as (Ein & Er & Eft & _).
    destruct (runner_team _ _ _ _ _ _ _ _ _ _ _ _ _ Hopt (Hreqs n) (Hspec n) Er Eft) as (t & -> & Ht & Et & _ & Ef & HF).
    assert (Hct : In ct cs /\ contractor_enabled (spec n) (ct_id ct) = true).
    { unfold filter_contractors in Ein. apply filter_In in Ein. exact Ein. }
    assert (Hen : sp_contractors (spec n) = [] \/ In (ct_id ct) (sp_contractors (spec n))).
    { destruct Hct as [_ Hct2]. unfold contractor_enabled in Hct2. destruct (sp_contractors (spec n)) as [|x l]; [auto|].
      right. apply existsb_exists in Hct2 as (y & Hy & Hey). apply Nat.eqb_eq in Hey. subst y. exact Hy. }
    assert (Htw : team_within p t) by (eapply team_within_of; eauto).
    set (st1 := if is_first then apt else st) in H.
    set (st2 := if is_last then tmax st1 0 else st1) in H.
    destruct (jit_schedule _ _ _ _ _ _ _ _ _ _) as [[sd1 s1]|] eqn:Em; [|discriminate].
    injection H as <- <-.
    assert (I1 := j_inv _ _ _ _ _ _ _ HI). assert (I3 := j_le _ _ _ _ _ _ _ HI).
    assert (Hst1 : 0 <= st1 <= TIME_INF /\ late_enough (sp_independent (spec n)) t s st1).
    { unfold st1. destruct is_first.
      - destruct (Hfirst eq_refl) as [_ [->|Hno]]; (split; [exact Hapt|]); [apply late_init; [lia|exact Htw]|].
        rewrite Hno in HF. assert (t = []) as -> by (destruct t; [reflexivity|inversion HF]). split; intros ? ? ? ? [].
      - unfold jfind, jit_find in Ef. destruct sd as [|x sd0]; [exfalso; apply Hnf; reflexivity|].
        rewrite Hch in Ef.
        destruct (find_agents_spec p s (sp_independent (spec n)) t I1 Htw 0) as (r & R1 & R2 & R3 & R4 & _).
        rewrite R1 in Ef. injection Ef as <- _.
        split; [split; [exact R2|]|split; assumption].
        eapply find_agents_le; [exact I3| |exact R1]. inf; lia. }
    assert (Hst2 : 0 <= st2 <= TIME_INF /\ late_enough (sp_independent (spec n)) t s st2).
    { unfold st2. destruct is_last; [|exact Hst1]. destruct Hst1 as [H1 H2]. rewrite tmax_spec. split; [lia|].
      eapply late_mono; [exact I1|exact Htw| |exact H2]. lia. }
    assert (Hge : is_first = true -> apt <= st2).
    { intros E. unfold st2, st1. rewrite E. destruct is_last; [rewrite tmax_spec|]; lia. }
    clearbody st2. clear st1 Hst1. destruct Hst2 as [Hst2 Hlate].
    assert (Hgoal : sd1 <> [] /\ (exists h', jsinv g cs spec (chains ++ [c]) sd1 s1 h' /\ covered sd h sd1 h') /\
      (forall m w, In (m, w) sd1 -> In (m, w) sd \/ st2 <= sw_start w) /\ incl sd sd1).
    2: { destruct Hgoal as (G1 & G2 & G3 & G4). split; [exact G1|]. split; [exact G2|]. split; [|exact G4]. intros E m w Hin.
      destruct (G3 m w Hin) as [Hin'|]; [|specialize (Hge E); lia]. destruct (Hfirst E) as [-> _]. destruct Hin'. }
    eapply (jplace_inv_from g est p apt Hest Hvol); [apply Hspec|exact HI|exact Hch|exact Hnd|exact Ht|exact Htw|exact Hst2|exact Hlate| |exact Em].
    intros w B3 B4. exists ct. destruct Hct as [Hct1 Hct2]. split; [exact Hct1|]. split; [exact B4|]. split; [exact Hen|].
    rewrite B3. clear -HF Hcs Hct1. change (u_reqs (g_unit g n)) with (reqs_of g n). revert HF.
    generalize (length (reqs_of g n)) as ln. intros ln HF.
    induction HF as [|rq k rs tm (D1 & D2 & D3 & cap & D4 & D5) HF IH]; constructor; [|exact IH].
    split; [exact D1|]. split; [exact D2|]. split; [exact D3|]. exists cap.
    split; [eapply capacity_pool_own; eauto|]. intros Hno. unfold count_ok in D5.
    rewrite Hno in D5. simpl in D5. lia.
  Qed.

  Lemma jstep_inv is_first is_last n chains sd s h sd' s' c :
    jsinv g cs spec chains sd s h ->
    (is_first = true -> sd = [] /\ s = jit_init p) -> (is_first = false -> sd <> []) ->
    chain_of g n = Some c -> NoDup (concat (chains ++ [c])) ->
    step is_first is_last apt n sd s = Done (sd', s') ->
    sd' <> [] /\ exists h', jsinv g cs spec (chains ++ [c]) sd' s' h'.
  Proof.
    intros HI Hf Hnf Hch Hnd H.
    edestruct (jstep_inv_from is_first is_last n chains sd s h sd' s' c) as (A & (h' & B & _) & _); eauto.
    intros E. destruct (Hf E). auto.
  Qed.

  Lemma jloop_inv_from : forall nodes is_first chains rest sd s h sd' s',
    jsinv g cs spec chains sd s h ->
    (is_first = true -> sd = [] /\ (s = jit_init p \/ forall n, hd_error nodes = Some n -> reqs_of g n = [])) -> (is_first = false -> sd <> []) ->
    chains_of g nodes = Some rest -> NoDup (concat (chains ++ rest)) ->
    loop is_first apt nodes sd s = Done (sd', s') ->
    exists h', jsinv g cs spec (chains ++ rest) sd' s' h' /\ covered sd h sd' h' /\ incl sd sd' /\
      (is_first = true -> forall n w, hd_error nodes = Some n -> In (n, w) sd' -> apt <= sw_start w).
  Proof.
    induction nodes as [|n nodes IH]; intros is_first chains rest sd s h sd' s' HI Hf Hnf Hch Hnd H.
    - simpl in Hch. injection Hch as <-. rewrite app_nil_r. simpl in H. injection H as <- <-. exists h. split; [exact HI|]. split; [intros a t; lia|].
      split; [apply incl_refl|discriminate].
    - cbn [chains_of] in Hch. destruct (chain_of g n) as [c|] eqn:Ec; [|discriminate].
      destruct (chains_of g nodes) as [rest'|] eqn:Er; [|discriminate]. injection Hch as <-.
      unfold loop in H. cbn [build_loop] in H. fold loop in H. fold step in H.
      destruct (step _ _ _ _ _ _) as [[sd1 s1]| |] eqn:Es; try discriminate.
      assert (Eapp : chains ++ c :: rest' = (chains ++ [c]) ++ rest') by (rewrite <- app_assoc; reflexivity).
      rewrite Eapp in *. rewrite concat_app in Hnd.
      assert (Hf' : is_first = true -> sd = [] /\ (s = jit_init p \/ reqs_of g n = [])).
      { intros E. destruct (Hf E) as [E1 [E2|E2]]; auto. }
      assert (Hs := jstep_inv_from _ _ _ _ _ _ _ _ _ _ HI Hf' Hnf Ec (nodup_app_l _ _ Hnd) Es).
      destruct Hs as [Hne [(h1 & HI1 & Hc1) [Hge1 Hin1]]].
      destruct (IH false (chains ++ [c]) rest' sd1 s1 h1 sd' s') as (h2 & HI2 & Hc2 & Hin2 & _); auto.
      + discriminate.
      + rewrite concat_app. exact Hnd.
      + exists h2. split; [exact HI2|]. split; [eapply covered_trans; eauto|]. split; [eapply incl_tran; eauto|].
        intros E m w [= <-] Hin. destruct (chain_head _ _ _ Ec) as [r Er'].
        assert (Hk : In n (map fst sd1)).
        { rewrite (j_keys _ _ _ _ _ _ _ HI1), <- in_rev, concat_app, in_app_iff. right. rewrite Er'. left. reflexivity. }
        apply in_map_iff in Hk as ([n' w'] & En & Hk). simpl in En. subst n'.
        assert (w' = w).
        { apply (nodup_key sd' n); [|apply Hin2; exact Hk|exact Hin].
          rewrite (j_keys _ _ _ _ _ _ _ HI2). apply NoDup_rev. rewrite concat_app. exact Hnd. }
        subst w'. eapply Hge1; eauto.
  Qed.

  Lemma jloop_inv : forall nodes is_first chains rest sd s h sd' s',
    jsinv g cs spec chains sd s h ->
    (is_first = true -> sd = [] /\ s = jit_init p) -> (is_first = false -> sd <> []) ->
    chains_of g nodes = Some rest -> NoDup (concat (chains ++ rest)) ->
    loop is_first apt nodes sd s = Done (sd', s') ->
    exists h', jsinv g cs spec (chains ++ rest) sd' s' h'.
  Proof.
    intros nodes is_first chains rest sd s h sd' s' HI Hf. intros.
    edestruct (jloop_inv_from nodes is_first chains rest sd s h sd' s') as (h' & A & _); eauto.
    intros E. destruct (Hf E). auto.
  Qed.
End JitLoop.

Lemma busy_ge_zero_time p h s : jcovers p h s -> jinv p s -> forall a cap t, capacity p a = Some cap -> busy h a t <= cap.
Proof.
  intros Hc Hi a cap t Hcap. assert (A := Hi a). rewrite Hcap in A. destruct A as (st & Hg & Hs).
  assert (B := Hc a cap st Hcap Hg t). unfold busy. destruct Hs as [_ S1 _ S3].
  assert (D := released_bounds st t S1). lia.
Qed.

(** Predecessors come earlier in the order, so that their times count. *)
Lemma earlier_prec g chains (sd : sched) : map fst sd = rev (concat chains) -> starts_after_predecessors g sd -> NoDup (concat chains) ->
  (forall e, In e (g_edges g) -> In (e_from e) (concat chains) -> In (e_to e) (concat chains) ->
       comes_before (concat chains) (e_from e) (e_to e)) ->
  forall e wu wv, In e (g_edges g) -> In (e_from e, wu) sd -> In (e_to e, wv) sd -> tadd (sw_finish wu) (e_lag e) <= sw_start wv.
Proof.
    intros K P Hnd Htopo. intros e wu wv He Hu Hv.
    assert (Hk : NoDup (map fst sd)) by (rewrite K; apply NoDup_rev; exact Hnd).
    assert (Hin : forall m w, In (m, w) sd -> In m (concat chains)).
    { intros m w Hin. apply in_sd_key in Hin. rewrite K in Hin. apply in_rev in Hin. exact Hin. }
    destruct (Htopo e He (Hin _ _ Hu) (Hin _ _ Hv)) as (x & y & z & E).
    apply in_split in Hv as (l1 & l2 & Ev). eapply P; [exact Ev|exact He|reflexivity|].
    assert (Hk2 : NoDup (map fst l2)).
    { rewrite Ev, map_app in Hk. apply nodup_app_r in Hk. simpl in Hk. inversion Hk; assumption. }
    apply sd_get_in; [exact Hk2|]. rewrite Ev in Hu. apply in_app_or in Hu as [Hu|[Hu|Hu]]; [| |exact Hu].
    - (* later than e_to: impossible *)
      exfalso. rewrite Ev, map_app in K. simpl in K.
      rewrite E, rev_app_distr in K. simpl in K. rewrite rev_app_distr in K. simpl in K.
      rewrite <- !app_assoc in K. simpl in K.
      assert (Hk3 : NoDup (rev z ++ e_to e :: rev y ++ e_from e :: rev x)).
      { rewrite E in Hnd. apply NoDup_rev in Hnd. rewrite rev_app_distr in Hnd. simpl in Hnd.
        rewrite rev_app_distr in Hnd. simpl in Hnd. rewrite <- !app_assoc in Hnd. simpl in Hnd. exact Hnd. }
      apply in_sd_key in Hu. apply in_split in Hu as (q1 & q2 & Hq). rewrite Hq in K.
      rewrite <- app_assoc in K. simpl in K.
      assert (Hx : comes_before (rev z ++ e_to e :: rev y ++ e_from e :: rev x) (e_from e) (e_to e)).
      { exists q1, q2, (map fst l2). symmetry. exact K. }
      assert (Hx2 : comes_before ((rev z ++ [e_to e]) ++ rev y ++ e_from e :: rev x) (e_from e) (e_to e)) by (rewrite <- app_assoc; exact Hx).
      apply comes_before_prefix in Hx2; [|rewrite <- app_assoc; exact Hk3|apply in_or_app; right; left; reflexivity].
      destruct Hx2 as (a1 & a2 & a3 & Ha).
      apply (nodup_app_disj (rev z ++ [e_to e]) (rev y ++ e_from e :: rev x) (e_from e)); [rewrite <- app_assoc; exact Hk3| |].
      + rewrite Ha. apply in_or_app. right. left. reflexivity.
      + apply in_or_app. right. left. reflexivity.
    - exfalso. injection Hu as Hu _. rewrite Hu in E. rewrite E in Hnd.
      apply NoDup_remove_2 in Hnd. apply Hnd. apply in_or_app. right. apply in_or_app. right. left. reflexivity.
Qed.

Lemma jit_build_feasible : forall g est optimize cs spec apt nodes chains sd s,
    contractors_ok cs -> estimator_ok est ->
    (forall n c sd s, optimizer_ok (optimize n c sd s)) ->
    (forall n, reqs_ok (reqs_of g n)) -> (forall n, 0 <= volume_of g n) -> (forall n, spec_ok (spec n)) ->
    (forall n, spec_fits cs (reqs_of g n) (spec n)) ->
    0 <= apt <= TIME_INF ->
    chains_of g nodes = Some chains -> NoDup (concat chains) ->
    (forall e, In e (g_edges g) -> In (e_from e) (concat chains) -> In (e_to e) (concat chains) ->
       comes_before (concat chains) (e_from e) (e_to e)) ->
    jit_build g est optimize cs spec apt nodes = Done (sd, s) ->
    map fst sd = rev (concat chains) /\
    (forall n w, In (n, w) sd -> 0 <= sw_start w <= sw_finish w /\ sw_finish w <= TIME_INF) /\
    (forall e wu wv, In e (g_edges g) -> In (e_from e, wu) sd -> In (e_to e, wv) sd ->
       tadd (sw_finish wu) (e_lag e) <= sw_start wv) /\
    (forall c u v wu wv, In c chains -> comes_before c u v -> In (u, wu) sd -> In (v, wv) sd ->
       sw_finish wu <= sw_start wv /\ sw_team wu = sw_team wv /\ sw_contractor wu = sw_contractor wv) /\
    (forall hd r n w, In (hd :: r) chains -> In n (hd :: r) -> In (n, w) sd -> staffed g cs spec hd w) /\
    (forall ct k n t, In ct cs -> In (k, n) (ct_workers ct) ->
       busy (schedule_bookings sd) (ct_id ct, k) t <= n).
Proof.
  intros g est optimize cs spec apt nodes chains sd s Hcs Hest Hopt Hreqs Hvol Hspec Hfit Hapt Hch Hnd Htopo H.
  assert (HI : exists h, jsinv g cs spec ([] ++ chains) sd s h).
  { eapply jloop_inv; [exact Hcs|exact Hest|exact Hopt|exact Hreqs|exact Hvol|exact Hspec|exact Hfit|exact Hapt| | | |exact Hch|exact Hnd|exact H].
    - destruct (jit_init_inv _ (pool_of_ok cs Hcs)) as [I1 I2].
      constructor; [reflexivity|exact I1|exact I2|apply jit_init_times; inf; lia| | | | |]; try (intros; contradiction).
      + intros a t. cbn. lia.
      + intros l1 v w l2 E. destruct l1; discriminate.
    - auto.
    - discriminate. }
  destruct HI as [h [K I1 I2 I3 L T TM P C]]. simpl in *.
  split; [assumption|]. split; [assumption|]. split.
  { apply (earlier_prec g chains sd); assumption. }
  do 2 (split; [assumption|]). intros ct k n t Hct Hin.
  assert (Hcap := capacity_pool cs ct k n Hcs Hct Hin).
  eapply Z.le_trans; [apply L|]. eapply busy_ge_zero_time; eauto.
Qed.
