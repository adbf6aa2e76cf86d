(** Proofs about the sweep of the schedule validator. *)
From Coq Require Import ZArith List Bool Lia Permutation Sorted ZifyBool.
From Verif Require Import TimeModel MomentumModel MomentumSpec MomentumHistory MomentumTeamProofs GraphModel ScheduleModel ScheduleSpec
  SchedulePoolProofs ContractorProofs ScheduleInv StableSort ValidationModel.
Import ListNotations.
Local Open Scope Z_scope.

Definition amt (p : list (nat * nat * Z)) (a : nat * nat) : Z :=
  match pool_get p a with Some n => n | None => 0 end.
Definition known (p : list (nat * nat * Z)) (a : nat * nat) : Prop := pool_get p a <> None.

Lemma pool_get_add p a b d :
  pool_get (add_count p a d) b = if agent_eqb a b then Some (amt p b + d) else pool_get p b.
Proof.
  unfold amt. induction p as [|[c n] p IH]; simpl.
  - destruct (agent_eqb a b); reflexivity.
  - destruct (agent_eqb c a) eqn:E1; simpl.
    + apply agent_eqb_iff in E1. subst c. destruct (agent_eqb a b); reflexivity.
    + rewrite IH. destruct (agent_eqb c b) eqn:E2; [|reflexivity].
      apply agent_eqb_iff in E2. subst c. destruct (agent_eqb a b) eqn:E3; [|reflexivity].
      apply agent_eqb_iff in E3. subst. rewrite agent_eqb_refl in E1. discriminate.
Qed.
Lemma amt_add p a b d : amt (add_count p a d) b = amt p b + (if agent_eqb a b then d else 0).
Proof.
  unfold amt at 1. rewrite pool_get_add. unfold amt. destruct (agent_eqb a b), (pool_get p b); simpl; lia.
Qed.
Lemma pool_get_keys p a : pool_get p a <> None <-> In a (map fst p).
Proof.
  induction p as [|[c n] p IH]; simpl; [tauto|]. destruct (agent_eqb c a) eqn:E.
  - apply agent_eqb_iff in E. split; [auto|discriminate].
  - rewrite IH. split; [auto|]. intros [->|]; [rewrite agent_eqb_refl in E; discriminate|auto].
Qed.
Lemma keys_add p a d : forall b, In b (map fst (add_count p a d)) <-> b = a \/ In b (map fst p).
Proof.
  intros b. rewrite <- !pool_get_keys, pool_get_add. destruct (agent_eqb a b) eqn:E.
  - apply agent_eqb_iff in E. subst. split; [auto|discriminate].
  - split; [auto|]. intros [->|]; [rewrite agent_eqb_refl in E; discriminate|auto].
Qed.
Lemma nodup_add p a d : NoDup (map fst p) -> NoDup (map fst (add_count p a d)).
Proof.
  induction p as [|[c n] p IH]; simpl; intros H; [repeat constructor; auto|]. inversion H; subst.
  destruct (agent_eqb c a) eqn:E; simpl; constructor; auto.
  rewrite keys_add. intros [->|]; [rewrite agent_eqb_refl in E; discriminate|auto].
Qed.
Lemma pool_get_set p a n b : pool_get (set_count p a n) b
  = if agent_eqb a b then match pool_get p b with Some _ => Some n | None => None end else pool_get p b.
Proof.
  induction p as [|[c m] p IH]; simpl; [destruct (agent_eqb a b); reflexivity|].
  destruct (agent_eqb c a) eqn:E1; simpl.
  - apply agent_eqb_iff in E1. subst c. destruct (agent_eqb a b); reflexivity.
  - rewrite IH. destruct (agent_eqb c b) eqn:E2; [|reflexivity].
    apply agent_eqb_iff in E2. subst c. destruct (agent_eqb a b) eqn:E3; [|reflexivity].
    apply agent_eqb_iff in E3. subst. rewrite agent_eqb_refl in E1. discriminate.
Qed.

(** Applying a class checks every changed entry and adds the changes. *)
Lemma apply_class_spec init : forall mp cur,
  NoDup (map fst mp) -> (forall a, known cur a <-> known init a) ->
  (forall a, In a (map fst mp) -> known init a) ->
  match apply_class init cur mp with
  | Some cur' => (forall a, In a (map fst mp) -> 0 <= amt cur a + amt mp a <= amt init a) /\
                 (forall a, amt cur' a = amt cur a + amt mp a) /\ (forall a, known cur' a <-> known init a)
  | None => exists a, In a (map fst mp) /\ ~ (0 <= amt cur a + amt mp a <= amt init a)
  end.
Proof.
  induction mp as [|[a d] mp IH]; intros cur Hnd Hk Hin; simpl.
  - split; [tauto|]. split; [intros; unfold amt; simpl; lia|exact Hk].
  - inversion Hnd as [|? ? Hna Hnd']; subst. cbn [map fst] in *.
    assert (Ka := Hin a (or_introl eq_refl)). assert (Kc : known cur a) by (apply Hk; exact Ka).
    assert (Hx : forall b, amt ((a, d) :: mp) b = if agent_eqb a b then d else amt mp b).
    { intros b. unfold amt. simpl. destruct (agent_eqb a b); reflexivity. }
    assert (Hm0 : amt mp a = 0).
    { unfold amt. destruct (pool_get mp a) eqn:E; [|reflexivity]. exfalso. apply Hna. apply pool_get_keys. congruence. }
    unfold known in Ka, Kc. destruct (pool_get cur a) as [n|] eqn:En; [|congruence].
    destruct (pool_get init a) as [m|] eqn:Em; [|congruence].
    assert (An : amt cur a = n) by (unfold amt; rewrite En; reflexivity).
    assert (Am : amt init a = m) by (unfold amt; rewrite Em; reflexivity).
    destruct ((0 <=? n + d) && (n + d <=? m)) eqn:Ec.
    + assert (Hset : forall b, amt (set_count cur a (n + d)) b = if agent_eqb a b then n + d else amt cur b).
      { intros b. unfold amt. rewrite pool_get_set. destruct (agent_eqb a b) eqn:E; [|reflexivity].
        apply agent_eqb_iff in E. subst b. rewrite En. reflexivity. }
      assert (Hks : forall b, known (set_count cur a (n + d)) b <-> known init b).
      { intros b. rewrite <- Hk. unfold known. rewrite pool_get_set. destruct (agent_eqb a b); [|tauto].
        destruct (pool_get cur b); split; congruence. }
      specialize (IH (set_count cur a (n + d)) Hnd' Hks (fun b Hb => Hin b (or_intror Hb))).
      assert (Hne : forall b, In b (map fst mp) -> agent_eqb a b = false).
      { intros b Hb. apply agent_eqb_neq. intros ->. contradiction. }
      destruct (apply_class init (set_count cur a (n + d)) mp) as [cur'|].
      * destruct IH as (I1 & I2 & I3). split; [|split; [|exact I3]].
        -- intros b [<-|Hb]; rewrite Hx; [rewrite agent_eqb_refl; lia|].
           rewrite (Hne b Hb). specialize (I1 b Hb). rewrite Hset, (Hne b Hb) in I1. exact I1.
        -- intros b. rewrite I2, Hset, Hx. destruct (agent_eqb a b) eqn:E; [|reflexivity].
           apply agent_eqb_iff in E. subst b. lia.
      * destruct IH as (b & Hb & Hbad). exists b. split; [right; exact Hb|]. rewrite Hx, (Hne b Hb).
        rewrite Hset, (Hne b Hb) in Hbad. exact Hbad.
    + exists a. split; [left; reflexivity|]. rewrite Hx, agent_eqb_refl. lia.
Qed.

(** The change of an event. *)
Definition sgn (e : vevent) : Z := match ve_type e with EvStart => -1 | EvEnd => 1 end.
Definition delta (e : vevent) (a : nat * nat) : Z := sgn e * tcount (ve_team e) a.
Fixpoint total (es : list vevent) (a : nat * nat) : Z :=
  match es with [] => 0 | e :: r => delta e a + total r a end.
Definition team_of_one (p : list (nat * nat * Z)) (team : list worker) : Prop :=
  forall w, In w team -> known p (w_contractor w, w_kind w) /\
    forall w', In w' team -> w_contractor w' = w_contractor w.

Lemma grab_spec init e c : (forall w, In w (ve_team e) -> w_contractor w = c /\ known init (w_contractor w, w_kind w)) ->
  forall mp, NoDup (map fst mp) -> (forall a, In a (map fst mp) -> known init a) ->
  NoDup (map fst (grab_event e c mp)) /\ (forall a, In a (map fst (grab_event e c mp)) -> known init a) /\
  forall a, amt (grab_event e c mp) a = amt mp a + delta e a.
Proof.
  unfold grab_event, delta, sgn. induction (ve_team e) as [|w r IH]; intros Hw mp Hnd Hk; simpl.
  - split; [exact Hnd|split; [exact Hk|]]. intros; destruct (ve_type e); lia.
  - destruct (Hw w (or_introl eq_refl)) as [Hc Hkw].
    specialize (IH (fun x Hx => Hw x (or_intror Hx))
                   (add_count mp (c, w_kind w) (match ve_type e with EvStart => - w_count w | EvEnd => w_count w end))).
    destruct IH as (I1 & I2 & I3).
    + apply nodup_add. exact Hnd.
    + intros a Ha. apply keys_add in Ha as [->|Ha]; [rewrite <- Hc; exact Hkw|auto].
    + split; [exact I1|split; [exact I2|]]. intros a. rewrite I3, amt_add. rewrite <- Hc.
      unfold agent_eqb. simpl. destruct (Nat.eqb _ _ && Nat.eqb _ _), (ve_type e); lia.
Qed.

(** What a successful sweep has checked. *)
Definition checked (init : list (nat * nat * Z)) (es : list vevent) (cur mp : list (nat * nat * Z)) (m : Z) : Prop :=
  forall a t, known init a -> m <= t -> (exists e, In e es /\ ve_team e <> [] /\ t < ve_time e) ->
    0 <= amt cur a + amt mp a + total (filter (fun e => ve_time e <=? t) es) a <= amt init a.

Lemma total_before es t a : (forall e, In e es -> t < ve_time e) -> total (filter (fun e => ve_time e <=? t) es) a = 0.
Proof.
  induction es as [|e es IH]; simpl; intros H; [reflexivity|].
  assert (H1 := H e (or_introl eq_refl)). destruct (Z.leb_spec (ve_time e) t); [lia|]. apply IH. auto.
Qed.

Lemma sweep_spec init : forall es cur mp m,
  ascending ve_time es -> (forall e, In e es -> m <= ve_time e) ->
  (forall e, In e es -> team_of_one init (ve_team e)) ->
  NoDup (map fst mp) -> (forall a, In a (map fst mp) -> known init a) ->
  (forall a, known cur a <-> known init a) -> (forall a, known init a -> 0 <= amt cur a <= amt init a) ->
  (sweep init es cur mp m <> None <-> checked init es cur mp m).
Proof.
  induction es as [|e es IH]; intros cur mp m Hs Hm Ht Hnd Hmk Hck Hb; cbn [sweep].
  - split; [|discriminate]. intros _ a t _ _ (e & [] & _).
  - apply StronglySorted_inv in Hs as [Hs Hf]. rewrite Forall_forall in Hf.
    assert (Hme := Hm e (or_introl eq_refl)). assert (Hte := Ht e (or_introl eq_refl)).
    destruct (ve_team e) as [|w0 team] eqn:Et.
    + rewrite IH; auto; [|intros; apply Hm; right; assumption|intros; apply Ht; right; assumption].
      assert (Hd : forall a, delta e a = 0) by (intros; unfold delta; rewrite Et; simpl; lia).
      assert (Hf0 : forall t a, total (filter (fun e => ve_time e <=? t) (e :: es)) a = total (filter (fun e => ve_time e <=? t) es) a).
      { intros t a. simpl. destruct (_ <=? _); [simpl; rewrite Hd; lia|reflexivity]. }
      unfold checked. split; intros H a t Ka Hmt (e' & Hin & Hne & Hlt).
      * rewrite Hf0. apply H; auto. destruct Hin as [<-|Hin]; [congruence|eauto].
      * specialize (H a t Ka Hmt). rewrite Hf0 in H. apply H. exists e'. split; [right; exact Hin|auto].
    + assert (Hw : forall w, In w (ve_team e) -> w_contractor w = w_contractor w0 /\ known init (w_contractor w, w_kind w)).
      { intros w Hw. rewrite Et in Hw. destruct (Hte w Hw) as [K1 K2]. split; [symmetry; apply K2; left; reflexivity|exact K1]. }
      destruct (Z.eqb_spec (ve_time e) m) as [E|E].
      * destruct (grab_spec init e (w_contractor w0) Hw mp Hnd Hmk) as (G1 & G2 & G3).
        rewrite IH; auto; [|intros; apply Hm; right; assumption|intros; apply Ht; right; assumption].
        unfold checked. split; intros H a t Ka Hmt (e' & Hin & Hne & Hlt).
        -- simpl. destruct (Z.leb_spec (ve_time e) t); [|lia]. simpl.
           destruct Hin as [<-|Hin]; [lia|]. specialize (H a t Ka Hmt). rewrite G3 in H.
           specialize (H (ex_intro _ e' (conj Hin (conj Hne Hlt)))). lia.
        -- specialize (H a t Ka Hmt). simpl in H. destruct (Z.leb_spec (ve_time e) t); [|lia]. simpl in H.
           rewrite G3. specialize (H (ex_intro _ e' (conj (or_intror Hin) (conj Hne Hlt)))). lia.
      * assert (Hlt : m < ve_time e) by lia.
        assert (Hz : forall a t, t < ve_time e -> total (filter (fun e => ve_time e <=? t) (e :: es)) a = 0).
        { intros a t Hlt'. apply total_before. intros x [<-|Hx]; [exact Hlt'|]. specialize (Hf x Hx). lia. }
        assert (Hap := apply_class_spec init mp cur Hnd Hck Hmk).
        destruct (apply_class init cur mp) as [cur'|].
        -- destruct Hap as (A1 & A2 & A3).
           destruct (grab_spec init e (w_contractor w0) Hw []) as (G1 & G2 & G3); [constructor|intros a []|].
           assert (HV : forall a, known init a -> 0 <= amt cur a + amt mp a <= amt init a).
           { intros a Ka. destruct (pool_get mp a) as [d|] eqn:Ea.
             - apply A1. apply pool_get_keys. congruence.
             - assert (Em : amt mp a = 0) by (unfold amt; rewrite Ea; reflexivity). specialize (Hb a Ka). lia. }
           rewrite IH; auto.
           ++ unfold checked. split; intros H a t Ka Hmt (e' & Hin & Hne & Hlt').
              ** destruct (Z_lt_ge_dec t (ve_time e)) as [Hl|Hl]; [rewrite Hz by lia; specialize (HV a Ka); lia|].
                 simpl. destruct (Z.leb_spec (ve_time e) t); [|lia]. simpl.
                 destruct Hin as [<-|Hin]; [lia|].
                 specialize (H a t Ka ltac:(lia) (ex_intro _ e' (conj Hin (conj Hne Hlt')))).
                 rewrite G3, A2 in H. replace (amt [] a) with 0 in H by reflexivity. lia.
              ** specialize (H a t Ka ltac:(lia) (ex_intro _ e' (conj (or_intror Hin) (conj Hne Hlt')))).
                 simpl in H. destruct (Z.leb_spec (ve_time e) t); [|lia]. simpl in H.
                 rewrite G3, A2. replace (amt [] a) with 0 by reflexivity. lia.
           ++ intros; apply Ht; right; assumption.
           ++ intros a Ka. rewrite A2. apply HV. exact Ka.
        -- split; [congruence|]. intros H. destruct Hap as (a & Ha & Hbad). exfalso. apply Hbad.
           specialize (H a m (Hmk a Ha) ltac:(lia)). rewrite Hz in H by lia.
           assert (Hne : ve_team e <> []) by congruence.
           specialize (H (ex_intro _ e (conj (or_introl eq_refl) (conj Hne Hlt)))). lia.
Qed.

(** The changes up to a moment are the workers busy at that moment. *)
Lemma total_app l1 l2 a : total (l1 ++ l2) a = total l1 a + total l2 a.
Proof. induction l1; simpl; lia. Qed.
Lemma total_perm l1 l2 a : Permutation l1 l2 -> total l1 a = total l2 a.
Proof. induction 1; simpl; lia. Qed.
Lemma filter_perm {A} (f : A -> bool) l1 l2 : Permutation l1 l2 -> Permutation (filter f l1) (filter f l2).
Proof.
  induction 1; simpl; [constructor|destruct (f x); [constructor|]; assumption| |eapply Permutation_trans; eassumption].
  destruct (f x), (f y); try apply Permutation_refl. apply perm_swap.
Qed.
Lemma total_events ws t a : (forall x, In x ws -> sw_start (snd x) <= sw_finish (snd x)) ->
  total (filter (fun e => ve_time e <=? t) (concat (map work_events ws))) a = - busy (schedule_bookings ws) a t.
Proof.
  induction ws as [|[n w] ws IH]; intros H; [reflexivity|].
  change ((n, w) :: ws) with ([(n, w)] ++ ws) at 2. rewrite sb_app, busy_app.
  assert (H1 := H (n, w) (or_introl eq_refl)). simpl in H1.
  assert (E : busy (schedule_bookings [(n, w)]) a t = busy (work_bookings (n, w)) a t).
  { unfold schedule_bookings. simpl. rewrite app_nil_r. reflexivity. }
  rewrite E, busy_work. specialize (IH (fun x Hx => H x (or_intror Hx))).
  cbn [map concat work_events app filter snd ve_time].
  destruct (Z.leb_spec (sw_start w) t), (Z.leb_spec (sw_finish w) t), (Z.ltb_spec t (sw_finish w)); cbn [total andb]; try lia;
    rewrite IH; unfold delta, sgn; cbn [ve_type ve_team]; lia.
Qed.

(** The initial state. *)
Lemma initial_one id : forall ws p a, NoDup (map fst ws) ->
  pool_get (fold_left (fun p' (w : nat * Z) => add_count p' (id, fst w) (snd w)) ws p) a
  = if Nat.eqb id (fst a) then match assoc_get ws (snd a) with
                               | Some n => Some (amt p a + n)
                               | None => pool_get p a
                               end else pool_get p a.
Proof.
  induction ws as [|[k n] ws IH]; intros p a Hnd; simpl; [destruct (Nat.eqb _ _); reflexivity|].
  inversion Hnd; subst. rewrite IH by assumption. rewrite !pool_get_add. unfold agent_eqb. simpl.
  destruct (Nat.eqb id (fst a)) eqn:E1; simpl; [|reflexivity].
  destruct (Nat.eqb_spec k (snd a)) as [E2|E2]; [|].
  - assert (En : assoc_get ws (snd a) = None).
    { destruct (assoc_get ws (snd a)) as [m|] eqn:Ea; [|reflexivity]. exfalso. apply H1. rewrite E2.
      clear -Ea. induction ws as [|[k' n'] ws IHw]; simpl in *; [discriminate|].
      destruct (Nat.eqb_spec k' (snd a)); auto. }
    rewrite En. reflexivity.
  - destruct (assoc_get ws (snd a)); [|reflexivity]. f_equal. rewrite amt_add. unfold agent_eqb. simpl.
    rewrite E1. destruct (Nat.eqb_spec k (snd a)); [contradiction|]. simpl. lia.
Qed.
Lemma pool_get_filter id p a :
  pool_get (filter (fun x : nat * nat * Z => negb (Nat.eqb (fst (fst x)) id)) p) a
  = if Nat.eqb (fst a) id then None else pool_get p a.
Proof.
  induction p as [|[b n] p IH]; simpl; [destruct (Nat.eqb _ _); reflexivity|].
  destruct (Nat.eqb_spec (fst b) id) as [E|E]; simpl; rewrite IH.
  - destruct (Nat.eqb_spec (fst a) id) as [E'|E']; [reflexivity|].
    destruct (agent_eqb b a) eqn:Eb; [|reflexivity]. apply agent_eqb_iff in Eb. congruence.
  - destruct (agent_eqb b a) eqn:Eb; [|reflexivity]. apply agent_eqb_iff in Eb. subst b.
    destruct (Nat.eqb_spec (fst a) id); [contradiction|reflexivity].
Qed.
Lemma initial_spec cs : contractors_ok cs -> forall a, pool_get (initial_state cs) a = capacity (pool_of cs) a.
Proof.
  intros [Hnd Hok]. unfold initial_state.
  assert (G : forall cs p a, NoDup (map ct_id cs) -> (forall c, In c cs -> NoDup (map fst (ct_workers c))) ->
    pool_get (fold_left (fun p c =>
               fold_left (fun p' w => add_count p' (ct_id c, fst w) (snd w)) (ct_workers c)
                         (filter (fun x => negb (Nat.eqb (fst (fst x)) (ct_id c))) p)) cs p) a
    = if existsb (fun c => Nat.eqb (ct_id c) (fst a)) cs then capacity (pool_of cs) a else pool_get p a).
  { clear. induction cs as [|c cs IH]; intros p a Hnd Hok; [reflexivity|]. cbn [fold_left existsb].
    inversion Hnd; subst. rewrite IH; auto; [|intros; apply Hok; right; assumption].
    unfold pool_of at 2. cbn [map concat]. rewrite capacity_app, capacity_one. fold (pool_of cs).
    rewrite initial_one by (apply Hok; left; reflexivity). rewrite pool_get_filter.
    rewrite (Nat.eqb_sym (fst a) (ct_id c)).
    destruct (Nat.eqb_spec (ct_id c) (fst a)) as [E|E]; cbn [orb].
    - destruct (existsb _ cs) eqn:Ex.
      + exfalso. apply existsb_exists in Ex as (c' & Hc' & E'). apply Nat.eqb_eq in E'.
        apply H1. rewrite E, <- E'. apply in_map. exact Hc'.
      + unfold amt. rewrite pool_get_filter. rewrite E, Nat.eqb_refl.
        destruct (assoc_get (ct_workers c) (snd a)); [f_equal|].
        symmetry. destruct a as [i k]. apply capacity_pool_none. intros Hin. apply in_map_iff in Hin as (c' & E' & Hc').
        assert (existsb (fun c => Nat.eqb (ct_id c) (fst (i, k))) cs = true); [|congruence].
        apply existsb_exists. exists c'. split; [exact Hc'|]. apply Nat.eqb_eq. exact E'.
    - destruct (existsb _ cs); reflexivity. }
  intros a. rewrite G; auto; [|intros c Hc; apply (Hok c Hc)].
  destruct (existsb _ cs) eqn:Ex; [reflexivity|]. simpl. symmetry. destruct a as [i k].
  apply capacity_pool_none. intros Hin. apply in_map_iff in Hin as (c' & E' & Hc').
  assert (existsb (fun c => Nat.eqb (ct_id c) (fst (i, k))) cs = true); [|congruence].
  apply existsb_exists. exists c'. split; [exact Hc'|]. apply Nat.eqb_eq. exact E'.
Qed.

Lemma busy_nonneg ws a t : (forall x w, In x ws -> In w (sw_team (snd x)) -> 0 <= w_count w) ->
  0 <= busy (schedule_bookings ws) a t.
Proof.
  induction ws as [|[n w] ws IH]; intros H; [unfold busy; simpl; lia|].
  change ((n, w) :: ws) with ([(n, w)] ++ ws). rewrite sb_app, busy_app.
  assert (E : busy (schedule_bookings [(n, w)]) a t = busy (work_bookings (n, w)) a t).
  { unfold schedule_bookings. simpl. rewrite app_nil_r. reflexivity. }
  rewrite E, busy_work. specialize (IH (fun x w Hx => H x w (or_intror Hx))).
  assert (0 <= tcount (sw_team w) a).
  { apply tcount_nonneg. intros w' Hw'. apply (H (n, w) w'); [left; reflexivity|exact Hw']. }
  destruct (_ && _); lia.
Qed.

Lemma busy_zero ws a t : (forall x, In x ws -> sw_team (snd x) <> [] -> t < sw_start (snd x) \/ sw_finish (snd x) <= t) ->
  busy (schedule_bookings ws) a t = 0.
Proof.
  induction ws as [|[n w] ws IH]; intros H; [reflexivity|].
  change ((n, w) :: ws) with ([(n, w)] ++ ws). rewrite sb_app, busy_app.
  assert (E : busy (schedule_bookings [(n, w)]) a t = busy (work_bookings (n, w)) a t).
  { unfold schedule_bookings. simpl. rewrite app_nil_r. reflexivity. }
  rewrite E, busy_work. rewrite (IH (fun x Hx => H x (or_intror Hx))).
  assert (H1 := H (n, w) (or_introl eq_refl)). simpl in H1.
  destruct (sw_team w) as [|w0 r]; [simpl; destruct (_ && _); lia|].
  destruct H1 as [H1|H1]; [discriminate| |];
    destruct (Z.leb_spec (sw_start w) t), (Z.ltb_spec t (sw_finish w)); simpl; lia.
Qed.
