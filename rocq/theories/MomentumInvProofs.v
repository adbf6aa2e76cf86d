(** The invariant of one agent's event list is preserved by a booking, and a booking
    is accepted exactly when it fits. *)
From Coq Require Import ZArith List Bool Lia Sorted.
From Coq Require Import ZifyBool ZifyNat.
From Verif Require Import TimeModel MomentumModel MomentumSpec MomentumProofs.
Import ListNotations.
Local Open Scope Z_scope.

Lemma SS_last {A} (R : A -> A -> Prop) l d x :
  StronglySorted R l -> In x l -> x = last l d \/ R x (last l d).
Proof.
  intros Hs Hx. assert (Hne : l <> []) by (destruct l; [destruct Hx|discriminate]).
  destruct (@exists_last _ l Hne) as (l' & a & ->).
  rewrite last_app_cons. simpl last. rewrite in_app_iff in Hx.
  destruct Hx as [Hx|[->|[]]]; [right|left; reflexivity].
  apply SS_app in Hs as (_ & _ & H). apply H; simpl; auto.
Qed.

Lemma SS_filter {A} (R : A -> A -> Prop) f l : StronglySorted R l -> StronglySorted R (filter f l).
Proof.
  induction 1 as [|a l Hs IH Hl]; simpl; [constructor|].
  destruct (f a); [|exact IH]. constructor; [exact IH|].
  rewrite Forall_forall in *. intros x Hx. apply filter_In in Hx. apply Hl; tauto.
Qed.

Lemma level_le state x : StronglySorted Rev state -> In x state ->
  level state (ev_time x) <= ev_cnt x.
Proof.
  intros Hs Hx. unfold level. fold d0.
  set (l := filter (fun e => ev_time e <=? ev_time x) state).
  assert (Hin : In x l) by (apply filter_In; split; [exact Hx|lia]).
  assert (Hsl : StronglySorted Rev l) by (apply SS_filter; exact Hs).
  destruct (SS_last Rev l d0 x Hsl Hin) as [E|HR]; [rewrite <- E; lia|].
  assert (Hne : l <> []) by (intros E; rewrite E in Hin; destruct Hin).
  assert (Hl : In (last l d0) l) by (apply last_In; exact Hne).
  apply filter_In in Hl as [_ Hl]. unfold Rev in HR. lia.
Qed.

Lemma level_ge_partA cap n bs state s : agent_inv cap n bs state -> 0 <= s ->
  level state s = ev_cnt (last (partA s state) d0).
Proof. reflexivity. Qed.

Lemma filter_le_mid s e t state : StronglySorted Rev state -> s <= t < e ->
  filter (fun x => ev_time x <=? t) state
  = partA s state ++ filter (fun x => ev_time x <=? t) (partB s e state).
Proof.
  intros Hs Ht. rewrite (parts s e state Hs) at 1 by lia.
  rewrite !filter_app.
  rewrite (filter_all _ (partA s state)), (filter_none _ (partC1 e state)), (filter_none _ (partC2 e state)), !app_nil_r; auto.
  - intros x Hx. apply in_partC2 in Hx. lia.
  - intros x Hx. apply in_partC1 in Hx. lia.
  - intros x Hx. apply in_partA in Hx. lia.
Qed.

Lemma bookable_fits cap n bs state s e w : agent_inv cap n bs state -> 0 <= s < e ->
  (bookable s e w state = true <-> fits cap bs s (e - s) w).
Proof.
  intros Hi Hse. assert (Hs := ai_sorted _ _ _ _ Hi).
  assert (HneA := partA_ne _ _ _ _ s Hi ltac:(lia)).
  unfold bookable, fits. rewrite andb_true_iff, forallb_forall. split.
  - intros [HB HA] t Ht.
    assert (Hl := ai_level _ _ _ _ Hi t ltac:(lia)).
    assert (w <= level state t); [|lia].
    unfold level. rewrite (filter_le_mid s e t) by (auto; lia).
    destruct (filter (fun x => ev_time x <=? t) (partB s e state)) as [|b B'] eqn:EB.
    + rewrite app_nil_r. fold d0. lia.
    + rewrite last_app_ne by discriminate.
      assert (Hin : In (last (b :: B') (Ev 0 INITIAL 0 0)) (b :: B')) by (apply last_In; discriminate).
      rewrite <- EB in Hin at 2. apply filter_In in Hin as [Hin _]. apply HB in Hin. lia.
  - intros H. split.
    + intros x Hx. apply in_partB in Hx as [Hx Hxt].
      assert (Hl := ai_level _ _ _ _ Hi (ev_time x) ltac:(lia)).
      assert (Hle := level_le state x Hs Hx).
      specialize (H (ev_time x) ltac:(lia)). lia.
    + specialize (H s ltac:(lia)).
      assert (Hl := ai_level _ _ _ _ Hi s ltac:(lia)).
      rewrite (level_ge_partA _ _ _ _ _ Hi) in Hl by lia. lia.
Qed.

Lemma last_map_dec w l d : l <> [] -> ev_cnt (last (map (dec w) l) d) = ev_cnt (last l d) - w.
Proof.
  intros H. destruct (@exists_last _ l H) as (l' & a & ->).
  rewrite map_app. simpl map. rewrite !last_app_cons. reflexivity.
Qed.

Lemma booked_inv cap n bs state s e w : agent_inv cap n bs state -> 0 <= s < e ->
  e <= TIME_INF -> 0 <= w -> n < TIME_INF -> bookable s e w state = true ->
  agent_inv cap (n + 1) (Bk s e w :: bs) (booked_state n s e w state).
Proof.
  intros Hi Hse Hinf Hw Hn1 Hb.
  assert (Hs := ai_sorted _ _ _ _ Hi).
  assert (HneA := partA_ne _ _ _ _ s Hi ltac:(lia)).
  assert (Hp := parts s e state Hs ltac:(lia)).
  assert (Hlev := ai_level _ _ _ _ Hi).
  assert (Hnn := ai_nonneg _ _ _ _ Hi).
  assert (Hn := ai_n _ _ _ _ Hi).
  unfold bookable in Hb. apply andb_true_iff in Hb as [HbB HbA]. rewrite forallb_forall in HbB.
  unfold booked_state. unfold d0 in *. fold d0 in *.
  assert (HAin : forall x, In x (partA s state) -> In x state) by (intros x Hx; apply in_partA in Hx; tauto).
  assert (HBin : forall x, In x (partB s e state) -> In x state) by (intros x Hx; apply in_partB in Hx; tauto).
  assert (HC1in : forall x, In x (partC1 e state) -> In x state) by (intros x Hx; apply in_partC1 in Hx; tauto).
  assert (HC2in : forall x, In x (partC2 e state) -> In x state) by (intros x Hx; apply in_partC2 in Hx; tauto).
  assert (HtA : forall x, In x (partA s state) -> ev_time x <= s) by (intros x Hx; apply in_partA in Hx; tauto).
  assert (HtB0 : forall x, In x (partB s e state) -> s < ev_time x < e) by (intros x Hx; apply in_partB in Hx; tauto).
  assert (HtC1 : forall x, In x (partC1 e state) -> ev_time x = e) by (intros x Hx; apply in_partC1 in Hx; tauto).
  assert (HtC2 : forall x, In x (partC2 e state) -> e < ev_time x) by (intros x Hx; apply in_partC2 in Hx; tauto).
  assert (HheadA : exists r, partA s state = Ev (-1) INITIAL 0 cap :: r /\ Forall (non_initial n) r).
  { destruct (ai_shape _ _ _ _ Hi) as (rest & -> & Hr). unfold partA. simpl.
    destruct (Z.leb_spec 0 s); [|lia]. eexists; split; [reflexivity|].
    rewrite Forall_forall in *. intros x Hx. apply filter_In in Hx. apply Hr; tauto. }
  assert (Hrestni : forall x, In x state -> 0 < ev_time x -> non_initial n x).
  { intros x Hx Hx0. assert (Hg := inv_good _ _ _ _ Hi). rewrite Forall_forall in Hg.
    destruct (Hg x Hx) as [|[_ ?]]; [assumption|lia]. }
  assert (HlevS : level state s = ev_cnt (last (partA s state) d0)) by reflexivity.
  assert (Hlastst : last state d0 = last (partA s state ++ partB s e state ++ partC1 e state ++ partC2 e state) d0)
    by (rewrite <- Hp; reflexivity).
  assert (HfA := fun t Ht => filter_le_mid s e t state Hs Ht).
  assert (Hfge : forall t, e <= t -> filter (fun x => ev_time x <=? t) state
      = partA s state ++ partB s e state ++ partC1 e state ++ filter (fun x => ev_time x <=? t) (partC2 e state)).
  { intros t Ht. rewrite Hp at 1. rewrite !filter_app.
    rewrite (filter_all _ (partA s state)), (filter_all _ (partB s e state)), (filter_all _ (partC1 e state)); auto.
    - intros x Hx. apply HtC1 in Hx. lia.
    - intros x Hx. apply HtB0 in Hx. lia.
    - intros x Hx. apply HtA in Hx. lia. }
  assert (Hflt : forall t, t < s -> filter (fun x => ev_time x <=? t) state
      = filter (fun x => ev_time x <=? t) (partA s state)).
  { intros t Ht. rewrite Hp at 1. rewrite !filter_app.
    rewrite (filter_none _ (partB s e state)), (filter_none _ (partC1 e state)), (filter_none _ (partC2 e state)), !app_nil_r; auto.
    - intros x Hx. apply HtC2 in Hx. lia.
    - intros x Hx. apply HtC1 in Hx. lia.
    - intros x Hx. apply HtB0 in Hx. lia. }
  assert (HSparts : StronglySorted Rev (partA s state ++ partB s e state ++ partC1 e state ++ partC2 e state))
    by (rewrite <- Hp; exact Hs).
  assert (HboundL : forall b, In b bs -> b_end b <= last_time state) by apply (ai_last _ _ _ _ Hi).
  assert (HstartL : forall b, In b bs -> 0 <= b_start b) by apply (ai_starts _ _ _ _ Hi).
  clear Hp Hi. unfold last_time in HboundL. fold d0 in HboundL.
  unfold level in Hlev, HlevS. fold d0 in Hlev, HlevS.
  set (A := partA s state) in *. set (B := partB s e state) in *.
  set (C1 := partC1 e state) in *. set (C2 := partC2 e state) in *.
  set (stev := Ev n START s (ev_cnt (last A d0) - w)).
  assert (HtB : forall x, In x (map (dec w) B) -> s < ev_time x < e).
  { intros x Hx. apply in_map_iff in Hx as (y & <- & Hy). apply HtB0 in Hy. simpl; lia. }
  set (pre := A ++ stev :: map (dec w) B).
  assert (Hprene : pre <> []) by (unfold pre; destruct A; discriminate).
  assert (Hpret : forall x, In x pre -> ev_time x < e).
  { intros x Hx. unfold pre in Hx. rewrite in_app_iff in Hx. destruct Hx as [Hx|[<-|Hx]];
      [apply HtA in Hx; lia | simpl; lia | apply HtB in Hx; lia]. }
  assert (Hlastpre : ev_cnt (last pre d0) + w = ev_cnt (last (A ++ B) d0)).
  { unfold pre. rewrite last_app_cons. destruct B as [|b B'] eqn:EB.
    - rewrite app_nil_r. simpl. lia.
    - assert (HneB : b :: B' <> []) by discriminate.
      rewrite (last_app_ne A (b :: B')) by exact HneB.
      change (stev :: map (dec w) (b :: B')) with ([stev] ++ map (dec w) (b :: B')).
      rewrite last_app_ne by discriminate. rewrite last_map_dec by exact HneB. lia. }
  set (cnt := match C1 with [] => ev_cnt (last pre d0) + w | _ => ev_cnt (last C1 d0) end).
  assert (Hcnt : cnt = ev_cnt (last (A ++ B ++ C1) d0)).
  { unfold cnt. destruct C1 as [|c C1'].
    - rewrite app_nil_r. exact Hlastpre.
    - rewrite app_assoc, last_app_ne by discriminate. reflexivity. }
  apply SS_app in HSparts as (HSA & HSBC & HRA). apply SS_app in HSBC as (HSB & HSC & HRB).
  apply SS_app in HSC as (HSC1 & HSC2 & HRC).
  assert (HSdecB : StronglySorted Rev (map (dec w) B)).
  { eapply SS_map; [|exact HSB]. unfold Rev; intros x y; simpl; lia. }
  constructor.
  - (* shape *)
    destruct HheadA as (r & HA & Hr). unfold pre. rewrite HA. simpl.
    eexists; split; [reflexivity|].
    rewrite !Forall_app. repeat split.
    + eapply Forall_impl; [|exact Hr]. unfold non_initial; intuition lia.
    + constructor.
      * unfold non_initial; simpl. repeat split; try lia. discriminate.
      * rewrite Forall_forall. intros x Hx. apply in_map_iff in Hx as (y & <- & Hy).
        assert (Hy' := HtB0 y Hy). assert (Hni := Hrestni y (HBin y Hy) ltac:(lia)).
        unfold non_initial in *; simpl; intuition lia.
    + rewrite Forall_forall. intros x Hx. assert (Hx' := HtC1 x Hx).
      assert (Hni := Hrestni x (HC1in x Hx) ltac:(lia)). unfold non_initial in *; intuition lia.
    + constructor.
      * unfold non_initial; simpl. repeat split; try lia. discriminate.
      * rewrite Forall_forall. intros x Hx. assert (Hx' := HtC2 x Hx).
        assert (Hni := Hrestni x (HC2in x Hx) ltac:(lia)). unfold non_initial in *; intuition lia.
  - (* sorted *)
    assert (HSpre : StronglySorted Rev pre).
    { unfold pre. apply SS_app; repeat split; [exact HSA| |].
      - apply SS_cons; split; [exact HSdecB|]. intros y Hy. left. apply HtB in Hy. simpl. lia.
      - intros x y Hx [<-|Hy].
        + assert (Hxt := HtA x Hx). destruct (SS_last Rev A d0 x HSA Hx) as [E|HR].
          * unfold Rev. simpl. rewrite <- E. lia.
          * assert (HlA : ev_time (last A d0) <= s) by (apply HtA, last_In; exact HneA).
            unfold Rev in *. simpl. lia.
        + left. apply HtA in Hx. apply HtB in Hy. lia. }
    apply SS_app; repeat split; [exact HSpre| |].
    + apply SS_app; repeat split; [exact HSC1| |].
      * apply SS_cons; split; [exact HSC2|]. intros y Hy. left. apply HtC2 in Hy. simpl. lia.
      * intros x y Hx [<-|Hy]; [|left; apply HtC1 in Hx; apply HtC2 in Hy; lia].
        right. assert (Hxt := HtC1 x Hx). split; [simpl; lia|]. simpl.
        assert (Hc : cnt = ev_cnt (last C1 d0)) by (unfold cnt; destruct C1; [destruct Hx|reflexivity]).
        rewrite Hc. destruct (SS_last Rev C1 d0 x HSC1 Hx) as [E|HR]; [rewrite <- E; lia|].
        assert (HlC : ev_time (last C1 d0) = e) by (apply HtC1, last_In; destruct C1; [destruct Hx|discriminate]).
        unfold Rev in HR. lia.
    + intros x y Hx Hy. left. apply Hpret in Hx. rewrite in_app_iff in Hy.
      destruct Hy as [Hy|[<-|Hy]]; [apply HtC1 in Hy; lia|simpl; lia|apply HtC2 in Hy; lia].
  - (* level *)
    intros t Ht. specialize (Hlev t Ht). unfold level. fold d0. simpl load. unfold active. simpl b_start; simpl b_end; simpl b_count.
    destruct (Z.ltb_spec t s) as [Hts|Hts].
    + assert (E : filter (fun x => ev_time x <=? t) (pre ++ C1 ++ Ev n END e cnt :: C2)
                  = filter (fun x => ev_time x <=? t) A).
      { unfold pre. rewrite <- app_assoc, filter_app.
        rewrite (filter_none _ ((stev :: map (dec w) B) ++ _)); [apply app_nil_r|].
        intros x Hx. rewrite !in_app_iff in Hx. destruct Hx as [[<-|Hx]|[Hx|[<-|Hx]]];
          [simpl; lia|apply HtB in Hx; lia|apply HtC1 in Hx; lia|simpl; lia|apply HtC2 in Hx; lia]. }
      rewrite E. rewrite (Hflt t Hts) in Hlev. rewrite Hlev.
      destruct (Z.leb_spec s t); [lia|]. simpl. lia.
    + destruct (Z.ltb_spec t e) as [Hte|Hte].
      * assert (E : filter (fun x => ev_time x <=? t) (pre ++ C1 ++ Ev n END e cnt :: C2)
                  = A ++ stev :: map (dec w) (filter (fun x => ev_time x <=? t) B)).
        { unfold pre. rewrite !filter_app.
          rewrite (filter_all _ A), (filter_none _ C1), (filter_none _ (_ :: C2)), !app_nil_r.
          - f_equal. cbn [filter]. simpl ev_time. destruct (Z.leb_spec s t); [|lia]. f_equal.
            clear. induction B as [|b B IH]; [reflexivity|]. cbn [map filter]. simpl ev_time.
            destruct (ev_time b <=? t); cbn [map]; rewrite IH; reflexivity.
          - intros x [<-|Hx]; [simpl; lia|apply HtC2 in Hx; lia].
          - intros x Hx; apply HtC1 in Hx; lia.
          - intros x Hx; apply HtA in Hx; lia. }
        rewrite E. rewrite (HfA t ltac:(lia)) in Hlev.
        destruct (Z.leb_spec s t); [|lia]. simpl andb. cbv iota.
        rewrite last_app_cons.
        destruct (filter (fun x => ev_time x <=? t) B) as [|b B'] eqn:EB.
        -- rewrite app_nil_r in Hlev. simpl. lia.
        -- assert (HneB : b :: B' <> []) by discriminate.
           rewrite last_app_ne in Hlev by exact HneB.
           change (stev :: map (dec w) (b :: B')) with ([stev] ++ map (dec w) (b :: B')).
           rewrite last_app_ne by discriminate. rewrite last_map_dec by exact HneB. lia.
      * assert (E : filter (fun x => ev_time x <=? t) (pre ++ C1 ++ Ev n END e cnt :: C2)
                  = pre ++ C1 ++ Ev n END e cnt :: filter (fun x => ev_time x <=? t) C2).
        { rewrite !filter_app. rewrite (filter_all _ pre), (filter_all _ C1).
          - cbn [filter]. simpl ev_time. destruct (Z.leb_spec e t); [reflexivity|lia].
          - intros x Hx; apply HtC1 in Hx; lia.
          - intros x Hx; apply Hpret in Hx; lia. }
        rewrite E. rewrite (Hfge t ltac:(lia)) in Hlev.
        destruct (Z.leb_spec s t); [|lia]. destruct (Z.ltb_spec t e); [lia|]. simpl andb. cbv iota.
        rewrite !app_assoc, last_app_cons.
        destruct (filter (fun x => ev_time x <=? t) C2) as [|c C2'] eqn:EC.
        -- rewrite app_nil_r in Hlev. simpl last. simpl ev_cnt. lia.
        -- change (Ev n END e cnt :: c :: C2') with ([Ev n END e cnt] ++ c :: C2').
           rewrite last_app_cons. rewrite !app_assoc, last_app_cons in Hlev. lia.
  - (* last time *)
    intros b Hbin. unfold last_time. fold d0.
    rewrite app_assoc, last_app_cons.
    assert (Hle : ev_time (last state d0) <= ev_time (last (Ev n END e cnt :: C2) d0)
                  /\ e <= ev_time (last (Ev n END e cnt :: C2) d0)).
    { destruct C2 as [|c C2'] eqn:EC.
      - simpl last. simpl ev_time. split; [|lia].
        rewrite Hlastst, app_nil_r.
        assert (Hin : In (last (A ++ B ++ C1) d0) (A ++ B ++ C1))
          by (apply last_In; destruct A; [congruence|discriminate]).
        rewrite !in_app_iff in Hin. destruct Hin as [Hin|[Hin|Hin]];
          [apply HtA in Hin; lia|apply HtB0 in Hin; lia|apply HtC1 in Hin; lia].
      - change (Ev n END e cnt :: c :: C2') with ([Ev n END e cnt] ++ c :: C2').
        rewrite last_app_cons. rewrite Hlastst, !app_assoc, last_app_cons.
        split; [lia|]. assert (Hin : In (last (c :: C2') d0) (c :: C2')) by (apply last_In; discriminate).
        apply HtC2 in Hin. lia. }
    destruct Hbin as [<-|Hbin]; [cbn [b_end]; lia|]. apply HboundL in Hbin. lia.
  - intros b [<-|Hbin]; [simpl; lia|apply HstartL; exact Hbin].
  - (* nonneg *)
    intros x Hx. rewrite !in_app_iff in Hx. destruct Hx as [Hx|[Hx|[<-|Hx]]].
    + unfold pre in Hx. rewrite in_app_iff in Hx. destruct Hx as [Hx|[<-|Hx]].
      * apply Hnn, HAin, Hx.
      * simpl. lia.
      * apply in_map_iff in Hx as (y & <- & Hy). apply HbB in Hy. simpl. lia.
    + apply Hnn, HC1in, Hx.
    + simpl. rewrite Hcnt.
      assert (Hin : In (last (A ++ B ++ C1) d0) (A ++ B ++ C1))
          by (apply last_In; destruct A; [congruence|discriminate]).
      rewrite !in_app_iff in Hin. destruct Hin as [Hin|[Hin|Hin]]; apply Hnn; auto.
    + apply Hnn, HC2in, Hx.
  - lia.
Qed.

Lemma init_inv cap : 0 <= cap -> agent_inv cap 0 [] (initial_state cap).
Proof.
  intros Hc. unfold initial_state. constructor.
  - eexists; split; [reflexivity|constructor].
  - constructor; [constructor|constructor].
  - intros t Ht. unfold level. cbn [filter]. simpl ev_time. destruct (Z.leb_spec 0 t); [|lia]. simpl. lia.
  - intros b [].
  - intros b [].
  - intros e [<-|[]]. simpl. exact Hc.
  - unfold TIME_INF; lia.
Qed.

(** The task counter may grow without a booking on this agent. *)
Lemma inv_more cap n m bs state : agent_inv cap n bs state -> n <= m <= TIME_INF ->
  agent_inv cap m bs state.
Proof.
  intros [(rest & -> & Hr) H2 H3 H4 H5 H6 H7] Hm. constructor; auto; [|lia].
  eexists; split; [reflexivity|]. eapply Forall_impl; [|exact Hr].
  unfold non_initial; intuition lia.
Qed.

(** Booking never pushes the load over the capacity. *)
Lemma inv_load_le cap n bs state t : agent_inv cap n bs state -> 0 <= t -> load bs t <= cap.
Proof.
  intros Hi Ht. assert (Hl := ai_level _ _ _ _ Hi t Ht).
  assert (Hne := partA_ne _ _ _ _ t Hi Ht).
  assert (Hin : In (last (partA t state) d0) (partA t state)) by (apply last_In; exact Hne).
  apply in_partA in Hin as [Hin _]. apply (ai_nonneg _ _ _ _ Hi) in Hin.
  rewrite (level_ge_partA _ _ _ _ _ Hi Ht) in Hl. lia.
Qed.
