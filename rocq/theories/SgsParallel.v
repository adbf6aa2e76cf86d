(** The parallel scheme of decoding chromosomes. *)
From Coq Require Import ZArith List Bool Lia Arith ZifyBool ZifyNat Permutation Sorted.
From Verif Require Import TimeModel MomentumModel MomentumSpec MomentumHistory MomentumTeamProofs
  JITModel JITHistory JITProofs GraphModel ScheduleModel ScheduleSpec ContractorProofs TeamProofs ScheduleProofs
  SchedulePoolProofs ScheduleInv ScheduleSafe JitScheduleInv JitScheduleSafe SgsModel SgsSpec SgsSerial.
Import ListNotations.
Local Open Scope Z_scope.

(** ** Teams *)
Definition agents_of (tm : list worker) : list (agent * Z) := map (fun w => ((w_contractor w, w_kind w), w_count w)) tm.
Lemma to_workers_agents tm : to_workers (agents_of tm) = tm.
Proof. unfold agents_of, to_workers. rewrite map_map. rewrite <- (map_id tm) at 2. apply map_ext. intros []. reflexivity. Qed.
Lemma agents_in tm a n : In (a, n) (agents_of tm) <-> In (Wk (fst a) (snd a) n) tm.
Proof.
  unfold agents_of. rewrite in_map_iff. split.
  - intros (w & [= <- <-] & H). destruct w; exact H.
  - intros H. exists (Wk (fst a) (snd a) n). destruct a. auto.
Qed.

Section Teams.
  Variables (g : graph) (names : list nat) (cs : list contractor) (nodes : list nat) (ch : chromosome) (bcs : list contractor).
  Hypothesis Hcs : contractors_ok cs.
  Hypothesis Hnames : NoDup names.
  Hypothesis Hch : chromosome_ok ch.
  Hypothesis Hbcs : with_borders names ch 0 cs = Some bcs.
  Hypothesis Hrow : forall n amounts ci k a b, gene nodes ch n amounts ci -> row_amount names amounts k a ->
    border_for names (ch_borders ch) ci k b -> a <= b.
  Hypothesis Hspc : forall n amounts ci k a m, gene nodes ch n amounts ci -> row_amount names amounts k a -> 0 < a ->
    spec_count (ch_spec ch n) (reqs_of g n) k m -> m <= a.

  Lemma parallel_team_spec c : forall amounts i tm, parallel_team names c i amounts = Some tm ->
    NoDup (map w_kind tm) /\ (forall w, In w tm -> In (w_kind w) (map fst (ct_workers c))) /\
    forall w, In w tm <-> exists j k a, nth_error names (i + j) = Some k /\ nth_error amounts j = Some a /\ 0 < a /\ w = Wk (ct_id c) k a.
  Proof.
    induction amounts as [|n r IH]; intros i tm H; cbn [parallel_team] in H.
    - injection H as <-. split; [constructor|]. split; [intros w []|]. intros w. split; [intros []|]. intros (j & k & a & _ & H & _). destruct j; discriminate.
    - assert (Hs : forall tm', parallel_team names c (S i) r = Some tm' ->
        forall w, In w tm' <-> exists j k a, nth_error names (i + S j) = Some k /\ nth_error r j = Some a /\ 0 < a /\ w = Wk (ct_id c) k a).
      { intros tm' H' w. destruct (IH _ _ H') as (_ & _ & I). rewrite I. split; intros (j & k & a & A & B); exists j, k, a; (split; [|exact B]).
        - replace (i + S j)%nat with (S i + j)%nat by lia. exact A.
        - replace (S i + j)%nat with (i + S j)%nat by lia. exact A. }
      destruct (Z.ltb_spec 0 n) as [Hn|Hn].
      + destruct (nth_error names i) as [k|] eqn:Ek; [|discriminate].
        destruct (assoc_get (ct_workers c) k) as [x|] eqn:Ea; [|discriminate].
        destruct (parallel_team names c (S i) r) as [tm'|] eqn:Et; [|discriminate]. injection H as <-.
        destruct (IH _ _ Et) as (I1 & I2 & _). assert (I3 := Hs _ eq_refl). split; [|split].
        * simpl. constructor; [|exact I1]. intros Hin. apply in_map_iff in Hin as (w & Ew & Hw). apply I3 in Hw as (j & k' & a & A & _ & _ & ->).
          simpl in Ew. subst k'. assert (i = i + S j)%nat; [|lia]. eapply (proj1 (NoDup_nth_error names)); [exact Hnames| |congruence].
          apply nth_error_Some. congruence.
        * intros w [<-|Hw]; [|auto]. simpl. apply assoc_get_in in Ea. apply in_map_iff. exists (k, x). auto.
        * intros w. split.
          -- intros [<-|Hw]; [exists 0%nat, k, n; rewrite Nat.add_0_r; auto|]. apply I3 in Hw as (j & k' & a & A). exists (S j), k', a. exact A.
          -- intros (j & k' & a & A & B & C & ->). destruct j as [|j].
             ++ left. rewrite Nat.add_0_r in A. simpl in B. congruence.
             ++ right. apply I3. exists j, k', a. auto.
      + destruct (IH _ _ H) as (I1 & I2 & _). assert (I3 := Hs _ H). split; [exact I1|]. split; [exact I2|].
        intros w. split.
        * intros Hw. apply I3 in Hw as (j & k' & a & A). exists (S j), k', a. exact A.
        * intros (j & k' & a & A & B & C & ->). destruct j as [|j].
          -- exfalso. simpl in B. injection B as ->. lia.
          -- apply I3. exists j, k', a. auto.
  Qed.
  Lemma parallel_team_row n w amounts ci c tm : nth_error nodes w = Some n -> nth_error (ch_rows ch) w = Some (amounts, ci) ->
    nth_error cs ci = Some c -> parallel_team names c 0 amounts = Some tm -> row_team names cs nodes ch n tm.
  Proof.
    intros H1 H2 H3 H4. destruct (parallel_team_spec c _ _ _ H4) as (A & _ & B). exists amounts, ci, c.
    split; [exists w; auto|]. split; [exact H3|]. split; [exact A|]. intros x. rewrite B. unfold row_amount. split.
    - intros (j & k & a & C1 & C2 & C3 & ->). exists k, a. split; [exists j; auto|auto].
    - intros (k & a & (j & C1 & C2) & C3 & ->). exists j, k, a. auto.
  Qed.

  (** a decoded work *)
  Definition decoded (est : nat -> list worker -> Z) (p : pwork) : Prop :=
    exists w amounts ci c, nth_error nodes w = Some (pw_node p) /\ nth_error (ch_rows ch) w = Some (amounts, ci) /\
      nth_error cs ci = Some c /\ pw_contractor p = ct_id c /\ parallel_team names c 0 amounts = Some (pw_team p) /\
      match sp_time (ch_spec ch (pw_node p)) with Some t => Some t | None => cascade_time g est (pw_node p) (pw_team p) end = Some (pw_exec p).

  Lemma apply_spec_rel est p team : decoded est p -> apply_spec (sp_workers (ch_spec ch (pw_node p))) (reqs_of g (pw_node p)) (pw_team p) = Some team ->
    Forall2 (fun w w' => w_contractor w' = w_contractor w /\ w_kind w' = w_kind w /\
      ((In (w_kind w) (map r_kind (reqs_of g (pw_node p))) /\
         (spec_count (ch_spec ch (pw_node p)) (reqs_of g (pw_node p)) (w_kind w) (w_count w') \/
          ((forall m, ~ spec_count (ch_spec ch (pw_node p)) (reqs_of g (pw_node p)) (w_kind w) m) /\ w_count w' = w_count w))) \/
       (~ In (w_kind w) (map r_kind (reqs_of g (pw_node p))) /\ w_count w' = w_count w)))
      (pw_team p) team.
  Proof.
    intros _ H. apply map_opt_forall2 in H. destruct Hch as (_ & _ & Hsp). destruct (Hsp (pw_node p)) as [_ Hnd]. clear Hsp.
    set (sp := ch_spec ch (pw_node p)) in *. set (rqs := reqs_of g (pw_node p)) in *.
    induction H as [|w w' l l' E _ IH]; constructor; [|exact IH].
    destruct (existsb (Nat.eqb (w_kind w)) (map r_kind rqs)) eqn:Ex.
    - apply existsb_exists in Ex as (k & Hk & Ek). apply Nat.eqb_eq in Ek. subst k.
      destruct (Nat.eqb_spec (length (sp_workers sp)) (length rqs)) as [El|El].
      + destruct (assoc_get (sp_workers sp) (w_kind w)) as [x|] eqn:Es; [|discriminate]. injection E as <-. simpl.
        repeat (split; [reflexivity|]). left. split; [exact Hk|]. left. apply spec_count_get; auto.
      + injection E as <-. simpl. repeat (split; [reflexivity|]). left. split; [exact Hk|].
        destruct (assoc_get (sp_workers sp) (w_kind w)) as [x|] eqn:Es.
        * destruct (Z.ltb_spec 0 x); [left; apply spec_count_get; auto|].
          right. split; [|reflexivity]. intros m' Hm'. apply spec_count_get in Hm'; [|exact Hnd]. rewrite Es in Hm'.
          destruct Hm' as [[= ->] [?|?]]; [congruence|lia].
        * right. split; [|reflexivity]. intros m' Hm'. apply spec_count_get in Hm'; [|exact Hnd]. destruct Hm'; congruence.
    - injection E as <-. repeat (split; [reflexivity|]). right. split; [|reflexivity].
      intros Hk. apply not_true_iff_false in Ex. apply Ex. apply existsb_exists. exists (w_kind w). split; [exact Hk|apply Nat.eqb_refl].
  Qed.

  Lemma forall2_in_l {A B} (R : A -> B -> Prop) l l' x : Forall2 R l l' -> In x l -> exists y, In y l' /\ R x y.
  Proof. induction 1 as [|a b l l' H _ IH]; intros Hx; [destruct Hx|destruct Hx as [<-|Hx]; [exists b; simpl; auto|]]. destruct (IH Hx) as (y & Hy & Hr). exists y. simpl. auto. Qed.
  Lemma forall2_in_r {A B} (R : A -> B -> Prop) l l' y : Forall2 R l l' -> In y l' -> exists x, In x l /\ R x y.
  Proof. induction 1 as [|a b l l' H _ IH]; intros Hx; [destruct Hx|destruct Hx as [<-|Hx]; [exists a; simpl; auto|]]. destruct (IH Hx) as (x & Hy & Hr). exists x. simpl. auto. Qed.

  Lemma row_amount_fun amounts k a b : row_amount names amounts k a -> row_amount names amounts k b -> a = b.
  Proof.
    intros (i & A1 & A2) (j & B1 & B2). assert (i = j); [|subst; congruence].
    eapply (proj1 (NoDup_nth_error names)); [exact Hnames| |congruence]. apply nth_error_Some. congruence.
  Qed.

  (** what the two teams of a decoded work are *)
  Lemma decoded_teams est p team : decoded est p ->
    apply_spec (sp_workers (ch_spec ch (pw_node p))) (reqs_of g (pw_node p)) (pw_team p) = Some team ->
    row_team names cs nodes ch (pw_node p) (pw_team p) /\
    parallel_gene_team g names cs nodes ch (pw_node p) team (pw_contractor p) /\
    team_within (pool_of bcs) (agents_of (pw_team p)) /\ team_within (pool_of bcs) (agents_of team) /\
    (forall a n, In (a, n) (agents_of team) -> exists n', In (a, n') (agents_of (pw_team p)) /\ n <= n').
  Proof.
    intros Hd Ha. assert (HF := apply_spec_rel est p team Hd Ha).
    destruct Hd as (w & amounts & ci & c & D1 & D2 & D3 & D4 & D5 & _).
    assert (Hg : gene nodes ch (pw_node p) amounts ci) by (exists w; auto).
    assert (HR := parallel_team_row _ _ _ _ _ _ D1 D2 D3 D5).
    destruct (parallel_team_spec c _ _ _ D5) as (P1 & P2 & P3).
    assert (P4 : forall x, In x (pw_team p) <-> exists k a, row_amount names amounts k a /\ 0 < a /\ x = Wk (ct_id c) k a).
    { intros x. rewrite P3. unfold row_amount. split.
      - intros (j & k & a & C1 & C2 & C3 & ->). exists k, a. split; [exists j; auto|auto].
      - intros (k & a & (j & C1 & C2) & C3 & ->). exists j, k, a. auto. }
    assert (Hkinds : map w_kind team = map w_kind (pw_team p)).
    { clear -HF. induction HF as [|x y l l' (_ & E & _) _ IH]; [reflexivity|]. simpl. congruence. }
    assert (Hnd : forall tm, (forall x, In x tm -> w_contractor x = ct_id c) -> NoDup (map w_kind tm) -> NoDup (map fst (agents_of tm))).
    { intros tm Hc Hk.
      assert (E : map fst (agents_of tm) = map (fun k => (ct_id c, k)) (map w_kind tm)).
      { unfold agents_of. rewrite !map_map. apply map_ext_in. intros x Hx. simpl. rewrite (Hc x Hx). reflexivity. }
      rewrite E. apply (FinFun.Injective_map_NoDup (f := fun k => (ct_id c, k))); [|exact Hk]. intros x y E'. congruence. }
    assert (Hc0 : forall x, In x (pw_team p) -> w_contractor x = ct_id c).
    { intros x Hx. apply P4 in Hx as (k & a & _ & _ & ->). reflexivity. }
    assert (Hc1 : forall x, In x team -> w_contractor x = ct_id c).
    { intros x Hx. destruct (forall2_in_r _ _ _ _ HF Hx) as (y & Hy & E & _). rewrite E. auto. }
    assert (Hcap : forall k, In k (map fst (ct_workers c)) -> exists b, capacity (pool_of bcs) (ct_id c, k) = Some b /\ border_for names (ch_borders ch) ci k b).
    { intros k Hk. destruct (with_borders_nth _ _ _ _ _ Hbcs) as [_ W]. destruct (W ci c D3) as (bc & W1 & W2 & W3 & W4).
      assert (Hk' := Hk). rewrite <- W3 in Hk'. apply in_map_iff in Hk' as ([k0 b] & E & Hin). simpl in E. subst k0.
      assert (Hb := W4 _ _ Hin). simpl in Hb. exists b. split; [|apply border_at_for; exact Hb].
      eapply bordered_capacity; eauto. }
    assert (Hle : forall x y, In x (pw_team p) -> w_kind y = w_kind x ->
      ((In (w_kind x) (map r_kind (reqs_of g (pw_node p))) /\
         (spec_count (ch_spec ch (pw_node p)) (reqs_of g (pw_node p)) (w_kind x) (w_count y) \/
          ((forall m, ~ spec_count (ch_spec ch (pw_node p)) (reqs_of g (pw_node p)) (w_kind x) m) /\ w_count y = w_count x))) \/
       (~ In (w_kind x) (map r_kind (reqs_of g (pw_node p))) /\ w_count y = w_count x)) -> 0 <= w_count y <= w_count x).
    { intros x y Hx Ek Hcase. apply P4 in Hx as (k & a & Hra & Hpos & ->). simpl in *.
      destruct Hcase as [[_ [Hs|[_ ->]]]|[_ ->]]; [|lia|lia]. split; [|eapply Hspc; eauto].
      destruct Hch as (_ & _ & Hsp). destruct (Hsp (pw_node p)) as [[Hsp1 _] _]. destruct Hs as [Hs _]. eapply Hsp1; eauto. }
    split; [exact HR|]. split; [|split; [|split]].
    - exists amounts, ci, c. split; [exact Hg|]. split; [exact D3|]. split; [exact D4|]. split; [rewrite Hkinds; exact P1|].
      intros y. change (u_reqs (g_unit g (pw_node p))) with (reqs_of g (pw_node p)). split.
      + intros Hy. destruct (forall2_in_r _ _ _ _ HF Hy) as (x & Hx & E1 & E2 & E3). apply P4 in Hx as (k & a & Hra & Hpos & ->). simpl in *.
        exists k, a, (w_count y). split; [exact Hra|]. split; [exact Hpos|]. split; [destruct y; simpl in *; congruence|].
        destruct E3 as [[Hk [Hs|[Hno ->]]]|[Hk ->]]; [left|left|right; auto]; (split; [exact Hk|]); [left; exact Hs|right; split; [exact Hno|exact Hra]].
      + intros (k & a & m & Hra & Hpos & -> & Hcase).
        assert (Hx : In (Wk (ct_id c) k a) (pw_team p)) by (apply P4; exists k, a; auto).
        destruct (forall2_in_l _ _ _ _ HF Hx) as (y & Hy & E1 & E2 & E3). simpl in *.
        enough (Ey : y = Wk (ct_id c) k m) by (rewrite <- Ey; exact Hy). destruct y as [yc yk ym]. simpl in *. subst yc yk. f_equal.
        destruct Hch as (_ & _ & Hsp). destruct (Hsp (pw_node p)) as [_ HndS].
        destruct Hcase as [[Hk Hgc]|[Hk ->]], E3 as [[Hk' Hs]|[Hk' Hs]]; try contradiction; [|exact Hs].
        destruct Hgc as [Hgc|[Hno Hra2]], Hs as [Hs|[Hno' Es]].
        * apply spec_count_get in Hgc; [|exact HndS]. apply spec_count_get in Hs; [|exact HndS]. destruct Hgc, Hs. congruence.
        * exfalso. eapply Hno'; eauto.
        * exfalso. eapply Hno; eauto.
        * rewrite Es. eapply row_amount_fun; eauto.
    - split; [apply Hnd; assumption|]. intros [i k] n Hin. apply agents_in in Hin. simpl in Hin.
      assert (E := Hc0 _ Hin). simpl in E. subst i. assert (Hk := P2 _ Hin). simpl in Hk. destruct (Hcap k Hk) as (b & B1 & B2).
      exists b. split; [exact B1|]. apply P4 in Hin as (k' & a & Hra & Hpos & [= <- <-]). assert (n <= b) by (eapply Hrow; eauto). lia.
    - split; [apply Hnd; [exact Hc1|rewrite Hkinds; exact P1]|]. intros [i k] n Hin. apply agents_in in Hin. simpl in Hin.
      destruct (forall2_in_r _ _ _ _ HF Hin) as (x & Hx & E1 & E2 & E3). simpl in E1, E2.
      assert (Hle' := Hle x (Wk i k n) Hx E2 E3). simpl in Hle'.
      assert (Hk := P2 _ Hx). apply P4 in Hx as (k' & a & Hra & Hpos & ->). simpl in *. subst i k.
      destruct (Hcap k' Hk) as (b & B1 & B2). exists b. split; [exact B1|]. assert (a <= b) by (eapply Hrow; eauto). lia.
    - intros [i k] n Hin. apply agents_in in Hin. simpl in Hin. destruct (forall2_in_r _ _ _ _ HF Hin) as (x & Hx & E1 & E2 & E3).
      simpl in E1, E2. assert (Hle' := Hle x (Wk i k n) Hx E2 E3). simpl in Hle'. exists (w_count x). split; [|lia].
      apply agents_in. simpl. rewrite E1, E2. destruct x; exact Hx.
  Qed.

  Lemma raw_within est p : decoded est p ->
    row_team names cs nodes ch (pw_node p) (pw_team p) /\ team_within (pool_of bcs) (agents_of (pw_team p)).
  Proof.
    intros (w & amounts & ci & c & D1 & D2 & D3 & D4 & D5 & _).
    split; [exact (parallel_team_row _ _ _ _ _ _ D1 D2 D3 D5)|].
    assert (Hg : gene nodes ch (pw_node p) amounts ci) by (exists w; auto).
    destruct (parallel_team_spec c _ _ _ D5) as (P1 & P2 & P3).
    assert (Hc0 : forall x, In x (pw_team p) -> w_contractor x = ct_id c).
    { intros x Hx. apply P3 in Hx as (j & k & a & _ & _ & _ & ->). reflexivity. }
    split.
    - assert (E : map fst (agents_of (pw_team p)) = map (fun k => (ct_id c, k)) (map w_kind (pw_team p))).
      { unfold agents_of. rewrite !map_map. apply map_ext_in. intros x Hx. simpl. rewrite (Hc0 x Hx). reflexivity. }
      rewrite E. apply (FinFun.Injective_map_NoDup (f := fun k => (ct_id c, k))); [|exact P1]. intros x y E'. congruence.
    - intros [i k] n Hin. apply agents_in in Hin. simpl in Hin. assert (E := Hc0 _ Hin). simpl in E. subst i.
      assert (Hk := P2 _ Hin). simpl in Hk.
      destruct (with_borders_nth _ _ _ _ _ Hbcs) as [_ W]. destruct (W ci c D3) as (bc & W1 & W2 & W3 & W4).
      assert (Hk' := Hk). rewrite <- W3 in Hk'. apply in_map_iff in Hk' as ([k0 b] & E & Hin'). simpl in E. subst k0.
      assert (Hb := W4 _ _ Hin'). simpl in Hb. exists b. split; [eapply bordered_capacity; eauto|].
      apply border_at_for in Hb. apply P3 in Hin as (j & k' & a & A1 & A2 & A3 & [= <- <-]).
      assert (n <= b); [|lia]. eapply Hrow; [exact Hg|exists j; eauto|exact Hb].
  Qed.
End Teams.

(** ** Lists *)
Lemma concat_perm {A} (l l' : list (list A)) : Permutation l l' -> Permutation (concat l) (concat l').
Proof.
  induction 1 as [|x l l' _ IH|x y l|l l' l'' _ IH1 _ IH2]; simpl; [constructor|apply Permutation_app_head; exact IH| |eapply perm_trans; eauto].
  rewrite !app_assoc. apply Permutation_app_tail. apply Permutation_app_comm.
Qed.
Lemma chains_of_app g : forall l1 l2 r, chains_of g (l1 ++ l2) = Some r ->
  exists r1 r2, r = r1 ++ r2 /\ chains_of g l1 = Some r1 /\ chains_of g l2 = Some r2.
Proof.
  induction l1 as [|n l1 IH]; intros l2 r H; [exists [], r; auto|]. cbn [chains_of app] in *.
  destruct (chain_of g n) as [c|]; [|discriminate]. destruct (chains_of g (l1 ++ l2)) as [r'|] eqn:E; [|discriminate].
  injection H as <-. destruct (IH _ _ E) as (r1 & r2 & -> & E1 & E2). exists (c :: r1), r2. rewrite E1. auto.
Qed.
Lemma chains_of_join g : forall l1 l2 r1 r2, chains_of g l1 = Some r1 -> chains_of g l2 = Some r2 -> chains_of g (l1 ++ l2) = Some (r1 ++ r2).
Proof.
  induction l1 as [|n l1 IH]; intros l2 r1 r2 H1 H2; cbn [chains_of app] in *; [injection H1 as <-; exact H2|].
  destruct (chain_of g n) as [c|]; [|discriminate]. destruct (chains_of g l1) as [r'|] eqn:E; [|discriminate].
  injection H1 as <-. rewrite (IH _ _ _ eq_refl H2). reflexivity.
Qed.
Lemma chains_of_in g : forall l r n, chains_of g l = Some r -> In n l -> exists c, chain_of g n = Some c /\ In c r.
Proof.
  induction l as [|m l IH]; intros r n H Hn; [destruct Hn|]. cbn [chains_of] in H.
  destruct (chain_of g m) as [c|] eqn:Ec; [|discriminate]. destruct (chains_of g l) as [r'|] eqn:E; [|discriminate].
  injection H as <-. destruct Hn as [->|Hn]; [exists c; simpl; auto|]. destruct (IH _ _ eq_refl Hn) as (c' & A & B). exists c'. simpl. auto.
Qed.

(** a later member of a chain has an inseparable parent *)
Lemma inseparable_children_parent g m : forall fuel n r, inseparable_children fuel g n = Some r -> In m r ->
  exists x, inseparable_parent g m = Some x.
Proof.
  induction fuel as [|fuel IH]; intros n r Er Hm; simpl in Er; [discriminate|].
  destruct (inseparable_son g n) as [b|] eqn:Eb; [|injection Er as <-; destruct Hm].
  destruct (inseparable_children fuel g b) as [r'|] eqn:Er'; [|discriminate]. injection Er as <-.
  destruct Hm as [<-|Hm]; [|eauto].
  unfold inseparable_son in Eb. destruct (filter _ (edges_from g n)) as [|e l] eqn:E; [discriminate|]. injection Eb as <-.
  assert (He : In e (filter (fun e => is_ifs (e_type e)) (edges_from g n))) by (rewrite E; left; reflexivity).
  apply filter_In in He as [He Hi]. unfold edges_from in He. apply filter_In in He as [He _].
  unfold inseparable_parent. destruct (filter _ (edges_to g (e_to e))) as [|x l'] eqn:E'; [|eauto].
  assert (X : In e []); [|destruct X]. rewrite <- E'. apply filter_In. split; [|exact Hi]. apply filter_In. split; [exact He|apply Nat.eqb_refl].
Qed.
Lemma chain_tail_inseparable g n r m : chain_of g n = Some (n :: r) -> In m r -> exists x, inseparable_parent g m = Some x.
Proof.
  unfold chain_of. intros H Hm. destruct (inseparable_son g n) as [b|]; [|injection H as <-; destruct Hm].
  destruct (inseparable_parent g n); [injection H as <-; destruct Hm|].
  destruct (inseparable_children _ g n) as [r'|] eqn:E; [|discriminate]. injection H as ->.
  eapply inseparable_children_parent; eauto.
Qed.

Lemma add_time_in t : forall l x, In x (add_time t l) <-> x = t \/ In x l.
Proof.
  induction l as [|y l IH]; intros x; simpl; [split; [intros [<-|[]]; auto|intros [->|[]]; auto]|].
  destruct (t <? y); simpl; [split; intros H; intuition|]. rewrite IH. split; intros H; intuition.
Qed.

Section Run.
  Variables (g : graph) (est : nat -> list worker -> Z) (names : list nat) (cs : list contractor) (nodes : list nat)
            (ch : chromosome) (apt : Z) (bcs : list contractor) (total : nat) (all : list (list nat)).
  Hypothesis Hcs : contractors_ok cs.
  Hypothesis Hest : estimator_ok est.
  Hypothesis Hvol : forall n, 0 <= volume_of g n.
  Hypothesis Hapt : 0 <= apt <= TIME_INF.
  Hypothesis Hnames : NoDup names.
  Hypothesis Hch : chromosome_ok ch.
  Hypothesis Hbcs : with_borders names ch 0 cs = Some bcs.
  Hypothesis Hrow : forall n amounts ci k a b, gene nodes ch n amounts ci -> row_amount names amounts k a ->
    border_for names (ch_borders ch) ci k b -> a <= b.
  Hypothesis Hspc : forall n amounts ci k a m, gene nodes ch n amounts ci -> row_amount names amounts k a -> 0 < a ->
    spec_count (ch_spec ch n) (reqs_of g n) k m -> m <= a.
  Hypothesis Hnd : NoDup (concat all).

  Let p := pool_of bcs.
  Let staff (n : nat) (w : swork) : Prop := parallel_gene_team g names cs nodes ch n (sw_team w) (sw_contractor w).

  Definition after_parents (chains : list (list nat)) : Prop :=
    forall l1 hd r l2, chains = l1 ++ (hd :: r) :: l2 -> sp_independent (ch_spec ch hd) = false ->
      forall m q, In m (hd :: r) -> In q (parents g m) -> In q (hd :: r) \/ In q (concat l1).
  Definition singles_last (sd : sched) : Prop :=
    forall n w, In (n, w) sd -> chain_of g n = Some [n] -> inseparable_parent g n = None ->
      exists tm, row_team names cs nodes ch n tm /\
        sw_finish w = tadd (sw_start w) (match sp_time (ch_spec ch n) with Some t => t | None => est n tm end).

  Definition pinv (l : list pwork) (s : pstate) : Prop :=
    exists chains rest h, jtinv g p staff chains (ps_sched s) (ps_tl s) h /\ after_parents chains /\ singles_last (ps_sched s) /\
      chains_of g (map pw_node l) = Some rest /\ Permutation (chains ++ rest) all /\
      Forall (decoded g names cs nodes ch est) l /\ Forall (fun x => 0 <= x <= TIME_INF) (ps_times s).

  Lemma exec_range q : decoded g names cs nodes ch est q -> 0 <= pw_exec q <= TIME_INF.
  Proof.
    intros (w & amounts & ci & c & _ & _ & _ & _ & _ & E). destruct Hch as (_ & _ & Hsp). destruct (Hsp (pw_node q)) as [[_ H] _].
    destruct (sp_time (ch_spec ch (pw_node q))) as [t|]; [injection E as <-; exact H|].
    unfold cascade_time in E. inf. destruct (inseparable_parent g (pw_node q)); [injection E as <-; lia|].
    destruct (chain_of g (pw_node q)) as [l|]; [|discriminate]. injection E as <-.
    assert (K : forall l t, 0 <= t <= TIME_INF -> 0 <= fold_left (fun t m => tadd t (est m (pw_team q))) l t <= TIME_INF).
    { clear -Hest. inf. induction l as [|m l IH]; intros t Ht; simpl; [exact Ht|]. apply IH.
      assert (A := tadd_ge t (est m (pw_team q)) (proj1 (Hest m (pw_team q))) (proj2 Ht)).
      assert (B := set_time_range (t + est m (pw_team q))). unfold tadd in *. lia. }
    apply K. lia.
  Qed.

  Lemma late_sub ind t0 t s st : late_enough ind t0 s st ->
    (forall a n, In (a, n) t -> exists n', In (a, n') t0 /\ n <= n') -> late_enough ind t s st.
  Proof.
    intros [L1 L2] H. split.
    - intros E a n q Hin Hg. destruct (H _ _ Hin) as (n' & Hin' & Hle). specialize (L1 E a n' q Hin' Hg). lia.
    - intros E a n q Hin Hg x Hx. destruct (H _ _ Hin) as (n' & Hin' & Hle). eapply L2; eauto.
  Qed.

  (** the single work of a chain lasts the execution time *)
  Lemma place_single team c curr n x sd fin sd' : jit_place g est team c curr [n] (Some [x]) sd = Some (fin, sd') ->
    exists st, sd' = (n, SW st (tadd st x) team c) :: sd.
  Proof.
    cbn [jit_place]. destruct (match inseparable_parent g n with Some _ => _ | None => true end); [|discriminate].
    intros [= _ <-]. eauto.
  Qed.
  Lemma assigned_single v a : 0 <= v -> 0 <= a <= TIME_INF -> assigned_exec_times [v] a = [a].
  Proof.
    intros Hv Ha. destruct (assigned_times_spec [v] a) as (A1 & _ & A3); [discriminate|constructor; auto|exact Ha|].
    destruct (assigned_exec_times [v] a) as [|x [|y l]]; try discriminate. unfold zsum in A3. simpl in A3. f_equal. lia.
  Qed.

  Lemma try_work_inv t q l1 l2 s s' : 0 <= t <= TIME_INF -> pinv (l1 ++ q :: l2) s ->
    (pw_pos q = 0%nat -> ps_tl s = jit_init p) -> try_work g est ch apt total t q s = Some (Some s') -> pinv (l1 ++ l2) s'.
  Proof.
    intros Ht (chains & rest & h & HI & HA & HS & Hrest & Hperm & Hdec & Htm) Hfirst H. unfold try_work in H.
    set (n := pw_node q) in *. set (sp := ch_spec ch n) in *.
    destruct (jit_can_schedule g (ps_sched s) (ps_tl s) n (pw_team q) (sp_independent sp) t) as [[|]|] eqn:Ecan; try discriminate.
    destruct (apply_spec (sp_workers sp) (reqs_of g n) (pw_team q)) as [team|] eqn:Ea; [|discriminate].
    set (st := if Nat.eqb (S (pw_pos q)) total then tmax t 0 else if Nat.eqb (pw_pos q) 0 then apt else t) in H.
    destruct (jit_schedule _ _ _ _ _ _ _ _ _ _) as [[sd' tl']|] eqn:Es; [|discriminate]. injection H as <-.
    assert (Hq : decoded g names cs nodes ch est q) by (rewrite Forall_forall in Hdec; apply Hdec; apply in_or_app; right; left; reflexivity).
    destruct (decoded_teams g names cs nodes ch bcs Hcs Hnames Hch Hbcs Hrow Hspc est q team Hq Ea) as (T1 & T2 & T3 & T4 & T5).
    assert (Hex := exec_range q Hq).
    rewrite map_app in Hrest. cbn [map] in Hrest. fold n in Hrest.
    destruct (chains_of_app _ _ _ _ Hrest) as (r1 & r2' & -> & R1 & R2). cbn [chains_of] in R2.
    destruct (chain_of g n) as [c|] eqn:Ec; [|discriminate]. destruct (chains_of g (map pw_node l2)) as [r2|] eqn:R3; [|discriminate].
    injection R2 as <-.
    assert (Hperm' : Permutation ((chains ++ [c]) ++ r1 ++ r2) all).
    { eapply perm_trans; [|exact Hperm]. rewrite <- app_assoc. apply Permutation_app_head. cbn [app]. apply Permutation_middle. }
    assert (Hnd' : NoDup (concat (chains ++ [c]))).
    { assert (X := Permutation_NoDup (Permutation_sym (concat_perm _ _ Hperm')) Hnd). rewrite concat_app in X. eapply nodup_app_l; eauto. }
    assert (I1 := j_inv _ _ _ _ _ _ _ HI).
    (* workers *)
    assert (Hfree : jit_workers_free (sp_independent sp) (pw_team q) t (ps_tl s) = Some true).
    { unfold jit_can_schedule in Ecan. destruct (sp_independent sp); [exact Ecan|]. rewrite Ec in Ecan.
      destruct (forallb _ c); [|discriminate]. destruct (t <? _); [discriminate|exact Ecan]. }
    assert (Hlate0 : late_enough (sp_independent sp) (agents_of (pw_team q)) (ps_tl s) t).
    { unfold jit_workers_free in Hfree. rewrite <- (to_workers_agents (pw_team q)) in Hfree.
      destruct (find_agents_spec p (ps_tl s) (sp_independent sp) (agents_of (pw_team q)) I1 T3 0) as (r & F1 & F2 & F3 & F4 & _).
      rewrite F1 in Hfree. injection Hfree as Hle. apply (late_mono p _ _ _ r t I1 T3); [lia|]. split; assumption. }
    assert (Hlate1 := late_sub _ _ _ _ _ Hlate0 T5).
    assert (Hst : 0 <= st <= TIME_INF /\ late_enough (sp_independent sp) (agents_of team) (ps_tl s) st).
    { unfold st. destruct (Nat.eqb (S (pw_pos q)) total).
      - rewrite tmax_spec. split; [lia|]. eapply late_mono; [exact I1|exact T4| |exact Hlate1]. lia.
      - destruct (Nat.eqb_spec (pw_pos q) 0) as [E0|E0]; [|auto].
        split; [exact Hapt|]. rewrite (Hfirst E0). apply late_init; [lia|exact T4]. }
    destruct Hst as [Hst Hlate]. clearbody st.
    set (sp' := WSpec (sp_contractors sp) (sp_workers sp) (Some (pw_exec q)) (sp_independent sp)) in *.
    assert (Hsp' : spec_ok sp').
    { destruct Hch as (_ & _ & Hsp). destruct (Hsp n) as [[Hsp1 _] _]. split; [exact Hsp1|exact Hex]. }
    assert (Hkeys := j_keys _ _ _ _ _ _ _ HI).
    assert (Es' := Es). rewrite <- (to_workers_agents team) in Es.
    destruct (jplace_inv g est p apt Hest Hvol staff n (pw_contractor q) sp' (agents_of team) st chains (ps_sched s) (ps_tl s) h sd' tl' c)
      as (Hne & h' & HI'); auto.
    { destruct T4 as [T41 T42]. split; [exact T41|]. intros a m Hin. destruct (T42 a m Hin) as (cap & _ & ?). lia. }
    { intros w E1 E2. unfold staff. rewrite E1, E2, to_workers_agents. exact T2. }
    exists (chains ++ [c]), (r1 ++ r2), h'. simpl. split; [exact HI'|]. split; [|split; [|split; [|split; [exact Hperm'|split]]]].
    - intros k1 hd r k2 E Hind m x Hm Hx. destruct (exists_last (l := (hd :: r) :: k2) ltac:(discriminate)) as (k3 & y & E3).
      destruct k2 as [|z k2] using rev_ind.
      + apply app_inj_tail in E as [<- E]. subst c. destruct (chain_head _ _ _ Ec) as [r0 Er0]. injection Er0 as -> ->.
        unfold jit_can_schedule in Ecan. unfold sp in Ecan. rewrite Hind, Ec in Ecan.
        destruct (forallb _ (n :: r0)) eqn:Ef; [|discriminate].
        rewrite forallb_forall in Ef. specialize (Ef m Hm). rewrite forallb_forall in Ef. specialize (Ef x Hx).
        apply orb_prop in Ef as [Ef|Ef].
        * apply existsb_exists in Ef as (y' & Hy' & Ey). apply Nat.eqb_eq in Ey. subst y'. auto.
        * right. destruct (sd_get (ps_sched s) x) as [w|] eqn:Eg; [|discriminate]. apply sd_get_in_weak, in_sd_key in Eg.
          rewrite Hkeys in Eg. apply in_rev in Eg. exact Eg.
      + clear IHk2 E3 k3 y. assert (E' : chains ++ [c] = (k1 ++ (hd :: r) :: k2) ++ [z]) by (rewrite E, <- app_assoc; reflexivity).
        apply app_inj_tail in E' as [E' _]. eapply HA; eauto.
    - intros m w Hin Hc1 Hp1. unfold jit_schedule in Es'. rewrite Ec in Es'. cbn [sp_time sp'] in Es'.
      destruct (jit_place g est team (pw_contractor q) st c _ (ps_sched s)) as [[fin sd1]|] eqn:Ep; [|discriminate].
      destruct (jit_update _ _ _ _) as [tl1|]; [|discriminate]. injection Es' as -> ->.
      destruct (in_dec Nat.eq_dec m c) as [Hmc|Hmc].
      + assert (Hcases : c = [m] \/ c <> [m]) by (destruct (list_eq_dec Nat.eq_dec c [m]); auto).
        destruct Hcases as [Hcm|Hcm].
        * assert (m = n) by (destruct (chain_head _ _ _ Ec) as [r0 Er0]; rewrite Hcm in Er0; congruence). subst m. subst c.
          cbn [map] in Ep. rewrite (assigned_single _ _ (Hvol n) Hex) in Ep.
          destruct (place_single _ _ _ _ _ _ _ _ Ep) as (st1 & ->). destruct Hin as [[= <-]|Hin].
          -- exists (pw_team q). split; [exact T1|]. simpl. f_equal.
             destruct Hq as (w0 & am & ci & ct & _ & _ & _ & _ & _ & Eq). fold n in Eq.
             destruct (sp_time (ch_spec ch n)); [congruence|]. unfold cascade_time in Eq. rewrite Hp1, Hc1 in Eq. cbn [fold_left] in Eq.
             injection Eq as <-. unfold tadd. rewrite Z.add_0_l. destruct (Hest n (pw_team q)) as [E1 E2]. inf.
             destruct (set_time_cases (est n (pw_team q))) as [[E3 _]|[[E4 _]|[E4 E3]]]; lia.
          -- eapply HS; eauto.
        * exfalso. destruct (chain_head _ _ _ Ec) as [r0 Er0]. subst c. destruct Hmc as [<-|Hmc]; [congruence|].
          destruct (chain_tail_inseparable g n _ m Ec) as (x & Hx); [exact Hmc|congruence].
      + apply HS; [|exact Hc1|exact Hp1].
        destruct (jit_schedule_spec g est p apt Hest Hvol (ps_sched s) (ps_tl s) n (agents_of team) (pw_contractor q) sp' st sd' tl' h)
          as (chain & new & fin' & A1 & A2 & A3 & _); auto; try apply HI.
        rewrite Ec in A1. injection A1 as <-. rewrite A2 in Hin. apply in_app_or in Hin as [Hin|Hin]; [|exact Hin].
        exfalso. apply Hmc. rewrite <- A3. apply in_rev in Hin. apply in_sd_key in Hin. exact Hin.
    - rewrite map_app. apply chains_of_join; assumption.
    - apply Forall_app in Hdec as [Hd1 Hd2]. apply Forall_app. split; [exact Hd1|]. inversion Hd2; assumption.
    - rewrite Forall_forall in *. intros x Hx. apply add_time_in in Hx as [->|Hx].
      + inf. assert (A := tadd_ge st (pw_exec q) (proj1 Hex) (proj2 Hst)). assert (B := set_time_range (st + pw_exec q)). unfold tadd in *. lia.
      + apply add_time_in in Hx as [->|Hx]; [exact Hst|auto].
  Qed.

  (** *** One pass over the remaining works *)
  Definition ready (q : pwork) : Prop := sp_independent (ch_spec ch (pw_node q)) = false ->
    forall c n x, chain_of g (pw_node q) = Some c -> In n c -> In x (parents g n) -> In x c.

  Definition others (l : list pwork) : Prop := forall q, In q l -> pw_pos q <> 0%nat.
  Definition first_ok (l : list pwork) (s : pstate) : Prop :=
    others l \/ exists q r, l = q :: r /\ others r /\ ready q /\ ps_sched s = [] /\ ps_tl s = jit_init p.


  Lemma first_scheduled t q s : 0 <= t -> decoded g names cs nodes ch est q -> ready q ->
    ps_sched s = [] -> ps_tl s = jit_init p -> try_work g est ch apt total t q s <> Some None.
  Proof.
    intros Ht Hq Hfirst Hs Htl H. assert (Hw : team_within p (agents_of (pw_team q))). { exact (proj2 (raw_within g names cs nodes ch bcs Hcs Hnames Hch Hbcs Hrow Hspc est q Hq)). }
    destruct (jit_init_inv p) as [I1 _].
    { apply pool_of_ok. eapply bordered_ok; eauto. }
    assert (Hfree : jit_workers_free (sp_independent (ch_spec ch (pw_node q))) (pw_team q) t (jit_init p) = Some true).
    { unfold jit_workers_free. rewrite <- (to_workers_agents (pw_team q)).
      destruct (find_agents_spec p (jit_init p) (sp_independent (ch_spec ch (pw_node q))) (agents_of (pw_team q)) I1 Hw 0) as (r & F1 & _).
      assert (F2 : r <= 0) by (eapply (find_agents_le 0 _ _ (jit_init_times 0 p (Z.le_refl 0))); [|exact F1]; lia).
      rewrite F1. destruct (Z.leb_spec r t); [reflexivity|lia]. }
    unfold try_work, jit_can_schedule in H. rewrite Hs, Htl in H.
    assert (Hrest : forall X : option (option pstate), match Some true with None => None | Some false => Some None | Some true => X end = Some None -> X = Some None) by auto.
    destruct (sp_independent (ch_spec ch (pw_node q))) eqn:Ei.
    - rewrite Hfree in H. destruct (apply_spec _ _ _); [|discriminate]. destruct (jit_schedule _ _ _ _ _ _ _ _ _ _) as [[]|]; discriminate.
    - destruct (chain_of g (pw_node q)) as [c|] eqn:Ec; [|discriminate].
      assert (Ef : forallb (fun m => forallb (fun x => existsb (Nat.eqb x) c || match sd_get [] x with Some _ => true | None => false end) (parents g m)) c = true).
      { apply forallb_forall. intros n Hn. apply forallb_forall. intros x Hx. apply orb_true_intro. left.
        apply existsb_exists. exists x. split; [eapply Hfirst; eauto|apply Nat.eqb_refl]. }
      rewrite Ef in H. assert (Em : min_start_time g [] (pw_node q) <= 0).
      { unfold min_start_time. destruct (max_default0_in (parent_times [] (edges_to g (pw_node q)))) as [->|E]; [lia|].
        apply parent_times_in in E as (e & w & _ & Hw' & _). discriminate. }
      destruct (Z.ltb_spec t (min_start_time g [] (pw_node q))); [lia|]. rewrite Hfree in H.
      destruct (apply_spec _ _ _); [|discriminate]. destruct (jit_schedule _ _ _ _ _ _ _ _ _ _) as [[]|]; discriminate.
  Qed.

  Lemma try_all_rest t : 0 <= t <= TIME_INF -> forall r k s l' s', pinv (k ++ r) s -> others r ->
    try_all g est ch apt total t r s = Some (l', s') -> pinv (k ++ l') s' /\ others l'.
  Proof.
    intros Ht. induction r as [|q r IH]; intros k s l' s' HI Ho H; cbn [try_all] in H.
    - injection H as <- <-. split; [exact HI|intros q []].
    - assert (Ho' : others r) by (intros x Hx; apply Ho; right; exact Hx).
      destruct (try_work g est ch apt total t q s) as [[s1|]|] eqn:E; [| |discriminate].
      + eapply IH; [|exact Ho'|exact H]. eapply try_work_inv; [exact Ht|exact HI| |exact E].
        intros E0. exfalso. apply (Ho q); [left; reflexivity|exact E0].
      + destruct (try_all g est ch apt total t r s) as [[l1 s1]|] eqn:E1; [|discriminate]. injection H as <- <-.
        destruct (IH (k ++ [q]) s l1 s1) as [A B]; auto; [rewrite <- app_assoc; exact HI|].
        rewrite <- app_assoc in A. split; [exact A|]. intros x [<-|Hx]; [apply Ho; left; reflexivity|auto].
  Qed.
  Lemma try_all_inv t l s l' s' : 0 <= t <= TIME_INF -> pinv l s -> first_ok l s ->
    try_all g est ch apt total t l s = Some (l', s') -> pinv l' s' /\ others l'.
  Proof.
    intros Ht HI [Ho|(q & r & -> & Ho & Hready & Hs & Htl)] H; [apply (try_all_rest t Ht l [] s l' s'); auto|].
    destruct (Nat.eq_dec (pw_pos q) 0) as [E0|E0].
    2: { apply (try_all_rest t Ht (q :: r) [] s l' s'); auto. intros x [<-|Hx]; auto. }
    cbn [try_all] in H. assert (Hq : decoded g names cs nodes ch est q).
    { destruct HI as (chains & rest & h & _ & _ & _ & _ & _ & Hd & _). inversion Hd; assumption. }
    destruct (try_work g est ch apt total t q s) as [[s1|]|] eqn:E; [| |discriminate].
    - apply (try_all_rest t Ht r [] s1 l' s'); auto. apply (try_work_inv t q [] r s s1); auto.
    - exfalso. refine (first_scheduled t q s (proj1 Ht) Hq Hready Hs Htl E).
  Qed.

  Lemma loop_inv : forall fuel ckpt start prev l s l' s', pinv l s -> first_ok l s -> -1 <= start <= TIME_INF ->
    parallel_loop g est ch apt total fuel ckpt start prev l s = Finished l' s' -> pinv l' s'.
  Proof.
    induction fuel as [|fuel IH]; intros ckpt start prev l s l' s' HI Hf Hst H; cbn [parallel_loop] in H; [discriminate|].
    destruct l as [|q l]; [injection H as <- <-; exact HI|].
    destruct (nth_error (ps_times s) ckpt) as [t|] eqn:En.
    - assert (Ht : 0 <= t <= TIME_INF).
      { destruct HI as (chains & rest & h & _ & _ & _ & _ & _ & _ & Htm). rewrite Forall_forall in Htm. apply Htm. eapply nth_error_In; eauto. }
      destruct (prev =? t); [eapply IH; [exact HI|exact Hf| |exact H]; lia|].
      destruct (is_inf t); [injection H as <- <-; exact HI|].
      destruct (try_all g est ch apt total t (q :: l) s) as [[l1 s1]|] eqn:E; [|discriminate].
      destruct (try_all_inv _ _ _ _ _ Ht HI Hf E) as [A B]. eapply IH; [exact A|left; exact B| |exact H]. lia.
    - assert (Ht : 0 <= tadd start 1 <= TIME_INF).
      { inf. unfold tadd. destruct (set_time_cases (start + 1)) as [[E1 R]|[[R1 R2]|[R1 R2]]]; lia. }
      destruct (try_all g est ch apt total (tadd start 1) (q :: l) s) as [[l1 s1]|] eqn:E; [|discriminate].
      destruct (try_all_inv _ _ _ _ _ Ht HI Hf E) as [A B]. eapply IH; [exact A|left; exact B| |exact H]. lia.
  Qed.
End Run.

(** ** The whole decoding *)
Lemma decode_works_spec g est names cs nodes ch : forall order pos works, decode_works g est names cs nodes ch pos order = Some works ->
  Forall2 (fun w q => nth_error nodes w = Some (pw_node q)) order works /\ Forall (decoded g names cs nodes ch est) works /\
  map pw_pos works = seq pos (length order).
Proof.
  induction order as [|w order IH]; intros pos works H; cbn [decode_works] in H; [injection H as <-; auto|].
  destruct (decode_work g est names cs nodes ch pos w) as [q|] eqn:E; [|discriminate].
  destruct (decode_works g est names cs nodes ch (S pos) order) as [l|] eqn:El; [|discriminate]. injection H as <-.
  destruct (IH _ _ El) as (A & B & C). unfold decode_work in E.
  destruct (nth_error nodes w) as [n|] eqn:En; [|discriminate]. destruct (nth_error (ch_rows ch) w) as [[amounts ci]|] eqn:Er; [|discriminate].
  destruct (nth_error cs ci) as [c|] eqn:Ec; [|discriminate]. destruct (parallel_team names c 0 amounts) as [tm|] eqn:Et; [|discriminate].
  destruct (match sp_time (ch_spec ch n) with Some t => Some t | None => _ end) as [t|] eqn:Ex; [|discriminate]. injection E as <-.
  split; [constructor; auto|]. split; [|simpl; congruence]. constructor; [|exact B].
  exists w, amounts, ci, c. simpl. auto 10.
Qed.

Lemma prec_from_order g sd L e wu wv : starts_after_predecessors g sd -> NoDup L -> map fst sd = rev L ->
  In e (g_edges g) -> comes_before L (e_from e) (e_to e) -> In (e_from e, wu) sd -> In (e_to e, wv) sd ->
  tadd (sw_finish wu) (e_lag e) <= sw_start wv.
Proof.
  intros P Hnd K He (x & y & z & E) Hu Hv.
  assert (Hk : NoDup (map fst sd)) by (rewrite K; apply NoDup_rev; exact Hnd).
  apply in_split in Hv as (l1 & l2 & Ev). eapply P; [exact Ev|exact He|reflexivity|].
  assert (Hk2 : NoDup (map fst l2)).
  { rewrite Ev, map_app in Hk. apply nodup_app_r in Hk. simpl in Hk. inversion Hk; assumption. }
  apply sd_get_in; [exact Hk2|]. rewrite Ev in Hu. apply in_app_or in Hu as [Hu|[Hu|Hu]]; [| |exact Hu].
  - exfalso. rewrite Ev, map_app in K. simpl in K.
    rewrite E, rev_app_distr in K. simpl in K. rewrite rev_app_distr in K. simpl in K.
    rewrite <- !app_assoc in K. simpl in K.
    assert (Hk3 : NoDup (rev z ++ e_to e :: rev y ++ e_from e :: rev x)).
    { rewrite E in Hnd. apply NoDup_rev in Hnd. rewrite rev_app_distr in Hnd. simpl in Hnd.
      rewrite rev_app_distr in Hnd. simpl in Hnd. rewrite <- !app_assoc in Hnd. simpl in Hnd. exact Hnd. }
    apply in_sd_key in Hu. apply in_split in Hu as (q1 & q2 & Hq). rewrite Hq in K.
    rewrite <- app_assoc in K. simpl in K.
    assert (Hx : comes_before (rev z ++ e_to e :: rev y ++ e_from e :: rev x) (e_from e) (e_to e)).
    { exists q1, q2, (map fst l2). symmetry. exact K. }
    assert (Hx2 : comes_before ((rev z ++ [e_to e]) ++ rev y ++ e_from e :: rev x) (e_from e) (e_to e)) by (rewrite <- app_assoc; exact Hx).
    apply comes_before_prefix in Hx2; [|rewrite <- app_assoc; exact Hk3|apply in_or_app; right; left; reflexivity].
    destruct Hx2 as (a1 & a2 & a3 & Ha).
    apply (nodup_app_disj (rev z ++ [e_to e]) (rev y ++ e_from e :: rev x) (e_from e)); [rewrite <- app_assoc; exact Hk3| |].
    + rewrite Ha. apply in_or_app. right. left. reflexivity.
    + apply in_or_app. right. left. reflexivity.
  - exfalso. injection Hu as Hu _. rewrite Hu in E. rewrite E in Hnd.
    apply NoDup_remove_2 in Hnd. apply Hnd. apply in_or_app. right. apply in_or_app. right. left. reflexivity.
Qed.
Lemma comes_before_ext {A} (l1 l2 l : list A) a b : comes_before l a b -> comes_before (l1 ++ l ++ l2) a b.
Proof. intros (x & y & z & ->). exists (l1 ++ x), y, (z ++ l2). rewrite <- !app_assoc. simpl. rewrite <- app_assoc. reflexivity. Qed.

Lemma parallel_decode_feasible : forall g est names cs nodes ch apt heads chains fuel rest s,
    contractors_ok cs -> estimator_ok est -> NoDup names -> chromosome_ok ch ->
    (forall n, 0 <= volume_of g n) -> 0 <= apt <= TIME_INF ->
    Forall2 (fun w n => nth_error nodes w = Some n) (ch_order ch) heads ->
    chains_of g heads = Some chains -> NoDup (concat chains) ->
    (forall n amounts ci k a b, gene nodes ch n amounts ci -> row_amount names amounts k a ->
       border_for names (ch_borders ch) ci k b -> a <= b) ->
    (forall n amounts ci k a m, gene nodes ch n amounts ci -> row_amount names amounts k a -> 0 < a ->
       spec_count (ch_spec ch n) (reqs_of g n) k m -> m <= a) ->
    (forall hd r l n q, chains = (hd :: r) :: l -> sp_independent (ch_spec ch hd) = false -> In n (hd :: r) -> In q (parents g n) -> In q (hd :: r)) ->
    (forall c e, In c chains -> In e (g_edges g) -> In (e_from e) c -> In (e_to e) c -> comes_before c (e_from e) (e_to e)) ->
    parallel_decode g est names cs nodes ch apt fuel = Finished rest s ->
    NoDup (map fst (ps_sched s)) /\
    (forall n, In n (concat chains) <-> In n (map fst (ps_sched s)) \/ exists q c, In q rest /\ chain_of g (pw_node q) = Some c /\ In n c) /\
    (forall n w, In (n, w) (ps_sched s) -> 0 <= sw_start w <= sw_finish w /\ sw_finish w <= TIME_INF) /\
    (forall e hd r wv, In e (g_edges g) -> is_dependency (e_type e) = true -> In (hd :: r) chains -> In (e_to e) (hd :: r) ->
       sp_independent (ch_spec ch hd) = false -> In (e_to e, wv) (ps_sched s) ->
       exists wu, In (e_from e, wu) (ps_sched s) /\ tadd (sw_finish wu) (e_lag e) <= sw_start wv) /\
    (forall c u v wu wv, In c chains -> comes_before c u v -> In (u, wu) (ps_sched s) -> In (v, wv) (ps_sched s) ->
       sw_finish wu <= sw_start wv /\ sw_team wu = sw_team wv /\ sw_contractor wu = sw_contractor wv) /\
    (forall hd r n w, In (hd :: r) chains -> In n (hd :: r) -> In (n, w) (ps_sched s) ->
       parallel_gene_team g names cs nodes ch hd (sw_team w) (sw_contractor w)) /\
    (forall ci c k a b t, nth_error cs ci = Some c -> In (k, a) (ct_workers c) -> border_for names (ch_borders ch) ci k b ->
       busy (schedule_bookings (ps_sched s)) (ct_id c, k) t <= b) /\
    (forall n w, In (n, w) (ps_sched s) -> chain_of g n = Some [n] -> inseparable_parent g n = None ->
      exists tm, row_team names cs nodes ch n tm /\
        sw_finish w = tadd (sw_start w) (match sp_time (ch_spec ch n) with Some t => t | None => est n tm end)).
Proof.
  intros g est names cs nodes ch apt heads all fuel rest s Hcs Hest Hnm Hch Hvol Hapt Ho Hc Hnd Hrow Hspc Hf Hin H.
  unfold parallel_decode in H. destruct (with_borders names ch 0 cs) as [bcs|] eqn:Hbcs; [|discriminate].
  destruct (decode_works g est names cs nodes ch 0 (ch_order ch)) as [works|] eqn:Ew; [|discriminate].
  destruct (decode_works_spec _ _ _ _ _ _ _ _ _ Ew) as (W1 & W2 & W3).
  assert (Hnodes : map pw_node works = heads).
  { clear -Ho W1. revert works W1. induction Ho as [|w n ws ns Hn _ IH]; intros works W1; inversion W1; subst; [reflexivity|]. simpl. f_equal; [congruence|auto]. }
  assert (HF : pinv g est names cs nodes ch bcs all rest s).
  { eapply loop_inv; [exact Hcs|exact Hest|exact Hvol|exact Hapt|exact Hnm|exact Hch|exact Hbcs|exact Hrow|exact Hspc|exact Hnd| | | |exact H].
    - destruct (jit_init_inv _ (pool_of_ok bcs (bordered_ok names ch cs Hcs Hch bcs Hbcs))) as [I1 I2].
      exists [], all, []. simpl. split.
      { constructor; simpl; [reflexivity|exact I1|exact I2|apply jit_init_times; inf; lia| | | | |]; try (intros; contradiction).
        - intros a t. cbn. lia.
        - intros l1 v w l2 E. destruct l1; discriminate. }
      split; [intros l1 hd r l2 E; destruct l1; discriminate|]. split; [intros n w []|].
      split; [rewrite Hnodes; exact Hc|]. split; [apply Permutation_refl|]. split; [exact W2|]. constructor; [inf; lia|constructor].
    - destruct works as [|q works]; [left; intros q []|]. right. exists q, works. split; [reflexivity|]. split; [|split; [|auto]].
      + destruct (length (ch_order ch)); [discriminate|]. cbn [map seq] in W3. injection W3 as _ W3.
        intros x Hx E. assert (Hp : In (pw_pos x) (map pw_pos works)) by (apply in_map; exact Hx). rewrite W3 in Hp. apply in_seq in Hp. lia.
      + subst heads. cbn [map chains_of] in Hc. destruct (chain_of g (pw_node q)) as [c|] eqn:Ec; [|discriminate].
        destruct (chains_of g (map pw_node works)) as [r0|]; [|discriminate]. injection Hc as <-.
        destruct (chain_head _ _ _ Ec) as [r1 ->]. intros Hi c n x Ec' Hn Hx. assert (c = pw_node q :: r1) by congruence. subst c.
        eapply Hf; eauto.
    - inf. unfold tsub. destruct (set_time_cases (apt - 1)) as [[E1 R]|[[R1 R2]|[R1 R2]]]; lia. }
  destruct HF as (chains & left & h & [K I1 I2 I3 L T TM P C] & HA & HS & Hleft & Hperm & _ & _).
  assert (Hperm' := concat_perm _ _ Hperm). rewrite concat_app in Hperm'.
  assert (Hnd2 := Permutation_NoDup (Permutation_sym Hperm') Hnd). assert (Hnd3 := nodup_app_l _ _ Hnd2).
  assert (Hin' : forall m w, In (m, w) (ps_sched s) -> In m (concat chains)).
  { intros m w Hm. apply in_sd_key in Hm. rewrite K in Hm. apply in_rev in Hm. exact Hm. }
  assert (Hsub : forall c, In c all -> forall m w, In m c -> In (m, w) (ps_sched s) -> In c chains).
  { intros c Hcin m w Hm Hw. apply (Permutation_in _ (Permutation_sym Hperm)) in Hcin. apply in_app_or in Hcin as [?|Hcin]; [assumption|].
    exfalso. eapply (nodup_app_disj _ _ m Hnd2); [eapply Hin'; eauto|]. apply in_concat. eauto. }
  split; [rewrite K; apply NoDup_rev; exact Hnd3|]. split; [|split; [exact T|]].
  { intros n. split.
    - intros Hn. apply (Permutation_in _ (Permutation_sym Hperm')) in Hn. apply in_app_or in Hn as [Hn|Hn].
      + left. rewrite K. apply in_rev in Hn. exact Hn.
      + right. apply in_concat in Hn as (c & Hcl & Hn).
        clear -Hleft Hcl Hn. revert left Hleft Hcl. induction rest as [|q rest IH]; intros left Hl Hcl; cbn [map chains_of] in Hl; [injection Hl as <-; destruct Hcl|].
        destruct (chain_of g (pw_node q)) as [c'|] eqn:E; [|discriminate]. destruct (chains_of g (map pw_node rest)) as [r|] eqn:Er; [|discriminate].
        injection Hl as <-. destruct Hcl as [->|Hcl]; [exists q, c; simpl; auto|]. destruct (IH r eq_refl Hcl) as (q' & c1 & A & B).
        exists q', c1. split; [right; exact A|exact B].
    - intros [Hn|(q & c & Hq & Ec & Hn)]; apply (Permutation_in _ Hperm'); apply in_or_app.
      + left. rewrite K in Hn. apply in_rev in Hn. exact Hn.
      + right. destruct (chains_of_in _ _ _ (pw_node q) Hleft) as (c' & E' & Hc'); [apply in_map; exact Hq|]. apply in_concat. exists c. split; [congruence|exact Hn]. }
  split; [|split; [|split; [|split; [|exact HS]]]].
  - intros e hd r wv He Hd Hcin Hto Hind Hv. assert (Hcc := Hsub _ Hcin _ _ Hto Hv).
    apply in_split in Hcc as (l1 & l2 & El).
    assert (Hpar : In (e_from e) (parents g (e_to e))).
    { unfold parents. apply in_map_iff. exists e. split; [reflexivity|]. apply filter_In. split; [|exact Hd].
      apply filter_In. split; [exact He|apply Nat.eqb_refl]. }
    assert (Hbef : comes_before (concat chains) (e_from e) (e_to e)).
    { rewrite El, concat_app. cbn [concat]. destruct (HA _ _ _ _ El Hind _ _ Hto Hpar) as [Hq|Hq].
      - apply comes_before_ext. eapply Hin; eauto.
      - apply in_split in Hq as (a & b & ->). apply in_split in Hto as (c & d & ->). exists a, (b ++ c), (d ++ concat l2).
        rewrite <- !app_assoc. cbn [app]. rewrite ?app_assoc_reverse. reflexivity. }
    assert (Hu : exists wu, In (e_from e, wu) (ps_sched s)).
    { assert (Hk : In (e_from e) (map fst (ps_sched s))).
      { rewrite K. apply in_rev. rewrite rev_involutive. destruct Hbef as (a & b & c & ->). apply in_or_app. right. left. reflexivity. }
      apply in_map_iff in Hk as ([m w] & E & Hk). simpl in E. subst m. eauto. }
    destruct Hu as [wu Hu]. exists wu. split; [exact Hu|]. eapply prec_from_order; eauto.
  - intros c u v wu wv Hcin Hb Hu Hv. eapply C; eauto. eapply Hsub; [exact Hcin| |exact Hu].
    destruct Hb as (a & b & d & ->). apply in_or_app. right. left. reflexivity.
  - intros hd r n w Hcin Hn Hw. eapply (TM hd r n w); eauto.
  - intros ci c k a b t Hci Hk Hb.
    assert (Hcap := bordered_capacity names ch cs Hcs Hch bcs ci c k b Hbcs Hci).
    assert (Hkk : capacity (pool_of bcs) (ct_id c, k) = Some b).
    { apply Hcap; [apply in_map_iff; exists (k, a); auto|]. apply (border_for_at _ _ _ _ _ Hnm) in Hb. exact Hb. }
    eapply Z.le_trans; [apply L|]. eapply busy_ge_zero_time; eauto.
Qed.
