(** C45: works that need different statuses of a zone do not overlap. *)
From Coq Require Import ZArith List Bool Lia Permutation Sorted.
From Verif Require Import TimeModel ZoneModel ZoneProofs.
Import ListNotations.
Local Open Scope Z_scope.

(** ** Histories of a zone timeline *)
(** A work asks for the earliest moment not before [Earliest], as the timelines do when they
    look for a start, or for a given moment, as they do in can_schedule_at_the_moment. Its
    number is the sequence number it gets. *)
Inductive wish := Earliest (parent : Z) | Moment (start : Z).
Record zwork := ZW { zw_index : Z; zw_zones : list zreq; zw_exec : Z; zw_wish : wish }.
(** What a work was given: the zone, the status, and the time of execution. *)
Record occupation := Oc { oc_work : Z; oc_zone : nat; oc_status : nat; oc_start : Z; oc_finish : Z }.
Definition occupy (w : zwork) (start : Z) : list occupation :=
  map (fun r => Oc (zw_index w) (fst r) (snd r) start (start + zw_exec w)) (zw_zones w).
Section Run.
  Variable cost : nat -> nat -> Z.
  Definition run_work (s : ztimelines * list occupation) (w : zwork) : option (ztimelines * list occupation) :=
    let '(tl, occ) := s in
    let at_ start := match update_zones cost (zw_index w) tl (zw_zones w) start (zw_exec w) with
                     | None => None
                     | Some (tl', _) => Some (tl', occ ++ occupy w start)
                     end in
    match zw_wish w with
    | Earliest parent => match find_min_zone_time cost tl (zw_zones w) parent (zw_exec w) with
                         | None => None
                         | Some start => at_ start
                         end
    | Moment start => match can_schedule_zones cost tl (zw_zones w) start (zw_exec w) with
                      | None => None
                      | Some false => Some s
                      | Some true => at_ start
                      end
    end.
  Fixpoint run_works (s : ztimelines * list occupation) (ws : list zwork) : option (ztimelines * list occupation) :=
    match ws with
    | [] => Some s
    | w :: r => match run_work s w with None => None | Some s' => run_works s' r end
    end.
End Run.
Definition wish_time (w : wish) : Z := match w with Earliest t => t | Moment t => t end.
(** Works as they come: every zone exists and is asked for once, times are not negative and
    stay below infinity, numbers grow. *)
Record well_formed (start : nat -> option nat) (ws : list zwork) : Prop := {
  wf_zones : forall w, In w ws -> NoDup (map fst (zw_zones w)) /\ forall r, In r (zw_zones w) -> start (fst r) <> None;
  wf_times : forall w, In w ws -> 0 <= zw_exec w /\ 0 <= wish_time (zw_wish w);
  wf_numbers : StronglySorted Z.lt (map zw_index ws) /\ forall w, In w ws -> 0 <= zw_index w;
  wf_horizon : fold_right Z.add 0 (map (fun w => wish_time (zw_wish w) + zw_exec w + 1) ws) <= TIME_INF
}.

(** ** Adding a booking *)
Lemma insert_ok s0 l B H H' b : zinv s0 l B H -> H <= H' -> (forall c, In c B -> bk_seq c < bk_seq b) -> 0 <= bk_seq b -> 0 <= bk_start b <= bk_finish b -> bk_finish b <= H' ->
  free_at B (bk_start b) (bk_finish b - bk_start b) (bk_status b) ->
  zinv s0 (zadd (end_event b) (zadd (start_event b) l)) (B ++ [b]) H'.
Proof.
  intros I HH Hs Hq Ht Hf Fr. assert (D : forall x, In x l -> zkey x <> zkey (start_event b) /\ zkey x <> zkey (end_event b)).
  { intros x X. apply (in_l s0 l B H I) in X as [-> |(c & Hc & E)]; [cbn; split; intros [=]; lia|]. specialize (Hs c Hc). destruct E as [-> | ->]; cbn; split; intros [=]; lia. }
  constructor.
  - apply zadd_sorted; [apply zadd_sorted; [apply (zi_sorted _ _ _ _ I)|intros x X; apply (D x X)]|].
    intros x X. apply (Permutation_in _ (zadd_perm _ _)) in X as [<-|X]; [cbn; intros [=]|apply (D x X)].
  - etransitivity; [apply zadd_perm|]. etransitivity; [apply perm_skip, zadd_perm|]. etransitivity; [apply perm_skip, perm_skip, (zi_perm _ _ _ _ I)|].
    unfold events. rewrite flat_map_app. cbn [flat_map]. rewrite app_nil_r. etransitivity; [apply perm_swap|].
    etransitivity; [apply perm_skip, perm_swap|]. etransitivity; [apply perm_swap|]. apply perm_skip.
    etransitivity; [|apply Permutation_app_comm]. cbn. reflexivity.
  - intros c Hc. apply in_app_iff in Hc as [Hc|[<-|[]]]; [destruct (zi_times _ _ _ _ I c Hc) as (T1 & T2 & T3); lia|lia].
  - assert (X : forall c, In c B -> conflict (bk_status c) (bk_status b) -> elt (end_event c) (start_event b) \/ elt (end_event b) (start_event c)).
    { intros c Hc C. specialize (Hs c Hc). destruct (Fr c Hc C) as [F|F]; [left|right]; unfold elt, zkey; cbn; lia. }
    intros c c' Hc Hc' C. apply in_app_iff in Hc as [Hc|[<-|[]]]; apply in_app_iff in Hc' as [Hc'|[<-|[]]].
    + apply (zi_free _ _ _ _ I c c' Hc Hc' C).
    + apply X; assumption.
    + apply or_comm, X; [assumption|]. unfold conflict in *. intuition.
    + destruct C as [C _]. congruence.
Qed.

(** ** A given moment *)
Definition count {A} (f : A -> bool) (l : list A) : nat := length (filter f l).
Lemma count_perm {A} (f : A -> bool) l l' : Permutation l l' -> count f l = count f l'.
Proof. unfold count. induction 1; cbn; auto; repeat (match goal with |- context [f ?a] => destruct (f a) end); cbn; congruence. Qed.
Lemma skip_filter l t : StronglySorted elt l -> skipn (zright l t) l = filter (fun e => negb (ztime e <=? t)) l.
Proof.
  unfold zright. induction 1 as [|x l Hs IH Hf]; cbn [filter]; [reflexivity|]. destruct (Z.leb_spec (ztime x) t) as [C|C]; cbn [negb length skipn]; [exact IH|].
  rewrite Forall_forall in Hf. assert (forall y, In y l -> t < ztime y) by (intros y Y; specialize (klt_time _ _ (Hf y Y)); lia).
  clear - H. assert (E : filter (fun e => ztime e <=? t) l = []).
  { induction l as [|y l IH]; cbn; [reflexivity|]. assert (X := H y (or_introl eq_refl)). destruct (Z.leb_spec (ztime y) t); [lia|]. apply IH. intros z Z0. apply H. right. exact Z0. }
  rewrite E. cbn [length skipn]. f_equal. clear E. induction l as [|y l IH]; cbn; [reflexivity|]. assert (X := H y (or_introl eq_refl)). destruct (Z.leb_spec (ztime y) t); [lia|]. cbn. f_equal. apply IH. intros z Z0. apply H. right. exact Z0.
Qed.
Lemma filter_and {A} (f h : A -> bool) l : filter f (filter h l) = filter (fun a => h a && f a) l.
Proof. induction l as [|a l IH]; cbn; [reflexivity|]. destruct (h a); cbn; [destruct (f a); cbn; congruence|exact IH]. Qed.
Lemma quiet_of_inside s0 l B H t : zinv s0 l B H -> 0 <= t -> zinside l (zright l t) = true -> forall b, In b B -> bk_start b <= t -> bk_finish b <= t.
Proof.
  intros I Ht Hi. unfold zinside in Hi. apply Nat.eqb_eq in Hi. rewrite (skip_filter l t (zi_sorted _ _ _ _ I)), !filter_and in Hi.
  change (count (fun a => negb (ztime a <=? t) && match ze_kind a with ZStart => true | _ => false end) l = count (fun a => negb (ztime a <=? t) && match ze_kind a with ZStart => false | _ => true end) l) in Hi.
  rewrite !(count_perm _ _ _ (zi_perm _ _ _ _ I)) in Hi. unfold count in Hi. cbn [filter] in Hi.
  replace (ztime (init_event s0) <=? t) with true in Hi by (symmetry; apply Z.leb_le; cbn; lia). cbn [negb andb] in Hi.
  assert (HT : forall b, In b B -> bk_start b <= bk_finish b) by (intros b Hb; apply (zi_times _ _ _ _ I b Hb)).
  clear I. revert Hi.
  match goal with |- length (filter ?f _) = length (filter ?h _) -> _ => set (fs := f); set (fe := h) end.
  assert (G : forall B, (forall b, In b B -> bk_start b <= bk_finish b) -> (length (filter fs (events B)) <= length (filter fe (events B)))%nat /\
     (length (filter fs (events B)) = length (filter fe (events B)) -> forall b, In b B -> bk_start b <= t -> bk_finish b <= t)).
  { clear. intros B. induction B as [|b B IH]; intros HT; [split; [cbn; lia|intros _ b []]|].
    destruct IH as [IH1 IH2]; [intros c Hc; apply HT; right; exact Hc|]. specialize (HT b (or_introl eq_refl)).
    change (events (b :: B)) with (start_event b :: end_event b :: events B). cbn [filter].
    replace (fs (start_event b)) with (negb (bk_start b <=? t)) by (unfold fs; cbn; rewrite andb_true_r; reflexivity).
    replace (fs (end_event b)) with false by (unfold fs; cbn; rewrite andb_false_r; reflexivity).
    replace (fe (start_event b)) with false by (unfold fe; cbn; rewrite andb_false_r; reflexivity).
    replace (fe (end_event b)) with (negb (bk_finish b <=? t)) by (unfold fe; cbn; rewrite andb_true_r; reflexivity).
    destruct (Z.leb_spec (bk_start b) t), (Z.leb_spec (bk_finish b) t); cbn [negb length]; try lia; (split; [lia|]); intros E c [<-|Hc]; try lia; apply IH2; auto; lia. }
  intros E. apply (G B HT). exact E.
Qed.
Lemma moment_ok s0 l B H t exec q : zinv s0 l B H -> 0 <= t -> 0 <= exec -> t + exec <= TIME_INF ->
  (zmatch (ze_status (nth (zright l t - 1) l zdummy)) q = true \/ zinside l (zright l t) = true) ->
  forallb (fun e => zmatch (ze_status e) q) (zslice l (zright l t) (zright l (t + exec))) = true ->
  free_at B t exec q /\ zvalid l t exec q = true.
Proof.
  intros I Ht He Hb Hs Hm. assert (Sd := zi_sorted _ _ _ _ I). assert (P := zright_pos s0 l B H I t Ht). assert (L := zright_le l t). assert (PI : 0 < TIME_INF) by reflexivity.
  rewrite forallb_forall in Hm. assert (M : forall k, (zright l t <= k < zright l (t + exec))%nat -> zmatch (ze_status (nth k l zdummy)) q = true).
  { intros k K. apply Hm, slice_in; [exact K|]. assert (L2 := zright_le l (t + exec)). lia. }
  destruct Hs as [Hs|Hs].
  - assert (T : ztime (nth (zright l t - 1) l zdummy) <= t) by (apply (zright_spec l t Sd); lia).
    assert (M' : forall k, (zright l t - 1 <= k < zright l (t + exec))%nat -> zmatch (ze_status (nth k l zdummy)) q = true).
    { intros k K. destruct (Nat.eq_dec k (zright l t - 1)) as [->|]; [exact Hs|apply M; lia]. }
    split; [apply (good_matching s0 l B H I exec q He t (zright l t - 1)); auto; lia|apply (valid_matching s0 l B H I exec q He t (zright l t - 1)); auto; lia].
  - assert (Q := quiet_of_inside s0 l B H t I Ht Hs). split; [|apply (valid_quiet s0 l B H I exec q t); auto; lia].
    intros b Hin C. destruct (Z_le_gt_dec (bk_finish b) t) as [|G]; [left; assumption|]. right.
    assert (bk_start b > t) by (destruct (Z_le_gt_dec (bk_start b) t) as [G2|]; [specialize (Q b Hin G2); lia|assumption]).
    destruct (Z_lt_le_dec (t + exec) (bk_start b)) as [|G2]; [assumption|]. exfalso.
    destruct (pos_of l (start_event b)) as (k & Lk & Ek); [apply (in_l s0 l B H I); eauto|].
    assert (zmatch (ze_status (nth k l zdummy)) q = true).
    { apply M. split; [|apply (zright_spec l _ Sd k Lk); rewrite Ek; cbn; lia].
      destruct (Nat.lt_ge_cases k (zright l t)) as [G3|]; [|assumption]. apply (zright_spec l t Sd k Lk) in G3. rewrite Ek in G3. cbn in G3. lia. }
    destruct C as (C1 & C2 & C3). apply match_conflict in H1; [|assumption]. rewrite Ek in H1. cbn in H1. congruence.
Qed.

(** ** All zones *)
Definition zbook (z : nat) (occ : list occupation) : list booking :=
  map (fun o => Bk (oc_work o) (oc_status o) (oc_start o) (oc_finish o)) (filter (fun o => Nat.eqb (oc_zone o) z) occ).
Lemma zbook_in z occ b : In b (zbook z occ) <-> exists o, In o occ /\ oc_zone o = z /\ b = Bk (oc_work o) (oc_status o) (oc_start o) (oc_finish o).
Proof.
  unfold zbook. rewrite in_map_iff. split.
  - intros (o & <- & X). apply filter_In in X as [X1 X2]. apply Nat.eqb_eq in X2. eauto.
  - intros (o & X1 & X2 & ->). exists o. split; [reflexivity|]. apply filter_In. rewrite Nat.eqb_eq. auto.
Qed.
Lemma zbook_add z occ o : zbook z (occ ++ [o]) = zbook z occ ++ (if Nat.eqb (oc_zone o) z then [Bk (oc_work o) (oc_status o) (oc_start o) (oc_finish o)] else []).
Proof. unfold zbook. rewrite filter_app, map_app. cbn [filter]. destruct (Nat.eqb (oc_zone o) z); reflexivity. Qed.
Definition winv (start : nat -> option nat) (tl : ztimelines) (occ : list occupation) (H : Z) : Prop :=
  forall z, match start z with None => tl z = None | Some s0 => exists l, tl z = Some l /\ zinv s0 l (zbook z occ) H end.
Lemma zinv_mono s0 l B H H' : H <= H' -> zinv s0 l B H -> zinv s0 l B H'.
Proof. intros L [I1 I2 I3 I4]. constructor; auto. intros b Hb. specialize (I3 b Hb). lia. Qed.
Lemma tadd_id a b : 0 <= a -> 0 <= b -> a + b <= TIME_INF -> tadd a b = a + b.
Proof. intros. assert (0 < TIME_INF) by reflexivity. unfold tadd, set_time. destruct (Z.ltb_spec TIME_INF (a + b)); [lia|]. destruct (Z.ltb_spec (a + b) (- TIME_INF)); [lia|reflexivity]. Qed.
Lemma tsub_0 a : 0 <= a <= TIME_INF -> tsub a 0 = a.
Proof. intros. assert (0 < TIME_INF) by reflexivity. unfold tsub, set_time. rewrite Z.sub_0_r. destruct (Z.ltb_spec TIME_INF a); [lia|]. destruct (Z.ltb_spec a (- TIME_INF)); [lia|reflexivity]. Qed.

Section Zones.
  Variable cost : nat -> nat -> Z.
  Hypothesis cost0 : forall s q, s <> q -> cost s q = 0.
  Variable start : nat -> option nat.
  Lemma cost_match s q : zmatch s q = false -> cost s q = 0.
  Proof. intros M. apply cost0. intros ->. unfold zmatch in M. rewrite Nat.eqb_refl, orb_true_r in M. discriminate. Qed.
  Definition zone_ok (tl : ztimelines) (occ : list occupation) (t exec : Z) (r : zreq) : Prop :=
    free_at (zbook (fst r) occ) t exec (snd r) /\ exists l, tl (fst r) = Some l /\ zvalid l t exec (snd r) = true.

  Lemma update_ok index t exec H : 0 <= index -> 0 <= t -> 0 <= exec -> t + exec <= H -> H <= TIME_INF ->
    forall zones tl occ, winv start tl occ H -> NoDup (map fst zones) ->
    (forall r, In r zones -> zone_ok tl occ t exec r /\ start (fst r) <> None /\ forall o, In o occ -> oc_zone o = fst r -> oc_work o < index) ->
    exists tl' ts, update_zones cost index tl zones t exec = Some (tl', ts) /\
      winv start tl' (occ ++ map (fun r => Oc index (fst r) (snd r) t (t + exec)) zones) H.
  Proof.
    intros Hi Ht He Hf HH. induction zones as [|[z q] zones IH]; intros tl occ W Nd Hz; cbn [update_zones map].
    - rewrite app_nil_r. eauto.
    - inversion Nd as [|? ? N1 N2]; subst. destruct (Hz (z, q) (or_introl eq_refl)) as ((Fr & l & El & Vl) & Hs & Hw). cbn [fst snd] in *. rewrite El, Vl.
      assert (Wz := W z). destruct (start z) as [s0|] eqn:Es; [|congruence]. destruct Wz as (l' & El' & I). assert (l' = l) by congruence. subst l'.
      set (status := ze_status _). assert (C : (if zmatch status q then 0 else cost status q) = 0) by (destruct (zmatch status q) eqn:M; [reflexivity|apply cost_match, M]).
      rewrite C, (tsub_0 t) by lia. rewrite (tadd_id t exec) by lia.
      set (b := Bk index q t (t + exec)). change (ZE index ZEnd (t + exec) q) with (end_event b). change (ZE index ZStart t q) with (start_event b).
      set (l2 := zadd (end_event b) (zadd (start_event b) l)).
      assert (I' : zinv s0 l2 (zbook z occ ++ [b]) H).
      { apply (insert_ok s0 l (zbook z occ) H H b I); cbn; try lia.
        - intros c Hc. apply zbook_in in Hc as (o & O1 & O2 & ->). cbn. apply Hw; assumption.
        - replace (t + exec - t) with exec by lia. exact Fr. }
      destruct (IH (zset tl z l2) (occ ++ [Oc index z q t (t + exec)])) as (tl' & ts & E & W').
      + intros x. rewrite zbook_add. cbn [oc_zone oc_work oc_status oc_start oc_finish]. unfold zset. destruct (Nat.eqb_spec z x) as [->|N].
        * rewrite Es, Nat.eqb_refl. exists l2. split; [reflexivity|exact I'].
        * destruct (Nat.eqb_spec x z); [congruence|]. rewrite app_nil_r. apply W.
      + exact N2.
      + intros r Hr. destruct (Hz r (or_intror Hr)) as ((F1 & l1 & E1 & V1) & Hs1 & Hw1).
        assert (D : fst r <> z) by (intros D; apply N1; rewrite <- D; apply in_map, Hr).
        split; [|split; [exact Hs1|]].
        * split; [rewrite zbook_add; cbn [oc_zone]; destruct (Nat.eqb_spec z (fst r)); [congruence|]; rewrite app_nil_r; exact F1|].
          exists l1. unfold zset. destruct (Nat.eqb_spec (fst r) z); [congruence|]. auto.
        * intros o Ho Eo. apply in_app_iff in Ho as [Ho|[<-|[]]]; [apply Hw1; assumption|cbn in Eo; congruence].
      + rewrite E. eexists. eexists. split; [reflexivity|]. rewrite <- app_assoc in W'. exact W'.
  Qed.

  Lemma required_in zones r : NoDup (map fst zones) -> In r zones -> zrequired zones (fst r) = snd r.
  Proof.
    unfold zrequired. generalize 0%nat. induction zones as [|x zones IH]; intros d Nd Hr; [destruct Hr|]. cbn [fold_left]. inversion Nd as [|? ? N1 N2]; subst.
    destruct Hr as [->|Hr]; [|apply IH; assumption]. rewrite Nat.eqb_refl.
    assert (X : forall (zs : list zreq) (d : nat), ~ In (fst r) (map fst zs) -> fold_left (fun acc x => if Nat.eqb (fst x) (fst r) then snd x else acc) zs d = d).
    { clear. induction zs as [|y zs IH]; intros d N; cbn; [reflexivity|]. cbn in N. destruct (Nat.eqb_spec (fst y) (fst r)); [exfalso; auto|]. apply IH. tauto. }
    apply X, N1.
  Qed.

  Section Search.
    Variables (tl : ztimelines) (occ : list occupation) (H : Z) (zones : list zreq) (parent exec : Z).
    Hypothesis W : winv start tl occ H.
    Hypothesis Nd : NoDup (map fst zones).
    Hypothesis Hz : forall r, In r zones -> start (fst r) <> None.
    Hypothesis Hp : 0 <= parent. Hypothesis He : 0 <= exec.
    Hypothesis Hb : Z.max parent (Z.max 0 H + 1) + exec <= TIME_INF.
    Definition cands : list Z := concat (map (fun r => match tl (fst r) with Some l => (ze_time (zlast l) + 1) :: map ze_time l | None => [] end) zones).
    Definition rank (t : Z) : nat := length (filter (fun c => t <? c) cands).
    Lemma rank_le t t' : t <= t' -> (rank t' <= rank t)%nat.
    Proof. intros L. unfold rank. induction cands as [|c l IH]; cbn; [lia|]. destruct (Z.ltb_spec t c), (Z.ltb_spec t' c); cbn; lia. Qed.
    Lemma rank_lt t t' : t < t' -> In t' cands -> (rank t' < rank t)%nat.
    Proof.
      intros L. unfold rank. assert (G : forall l, (length (filter (fun c => (t' <? c)%Z) l) <= length (filter (fun c => (t <? c)%Z) l))%nat).
      { induction l as [|c l IH]; cbn; [lia|]. destruct (Z.ltb_spec t c), (Z.ltb_spec t' c); cbn; lia. }
      induction cands as [|c l IH]; cbn; [intros []|]. specialize (G l). intros [->|X]; destruct (Z.ltb_spec t' t'), (Z.ltb_spec t t'); try lia; cbn.
      - lia.
      - specialize (IH X). destruct (Z.ltb_spec t c), (Z.ltb_spec t' c); cbn; lia.
    Qed.
    Lemma loop_ok : forall fuel queue scheduled t, (rank t * S (length zones) + length queue <= fuel)%nat ->
      (length queue + length scheduled = length zones)%nat -> incl (queue ++ scheduled) zones -> (forall r, In r zones -> In r queue \/ In r scheduled) ->
      parent <= t <= Z.max parent (Z.max 0 H + 1) -> (forall r, In r scheduled -> zone_ok tl occ t exec r) ->
      exists t', zones_loop cost fuel tl zones exec queue scheduled t = Some t' /\ parent <= t' <= Z.max parent (Z.max 0 H + 1) /\ forall r, In r zones -> zone_ok tl occ t' exec r.
    Proof.
      induction fuel as [|fuel IH]; intros queue scheduled t F Ln Inc Cov Ht Ok; destruct queue as [|r queue]; cbn [zones_loop].
      1, 3: exists t; split; [reflexivity|]; split; [exact Ht|]; intros r Hr; apply Ok; destruct (Cov r Hr) as [[]|X]; exact X.
      - cbn in F. lia.
      - assert (Hr : In r zones) by (apply Inc; left; reflexivity).
        assert (Wz := W (fst r)). specialize (Hz r Hr). destruct (start (fst r)) as [s0|] eqn:Es; [|congruence]. destruct Wz as (l & El & I).
        rewrite El, (required_in zones r Nd Hr).
        destruct (find_slot_ok s0 l (zbook (fst r) occ) H I exec (snd r) He cost (fun s => cost_match s (snd r)) t ltac:(lia) ltac:(lia)) as (t' & Ef & (G1 & G2 & G3 & G4)).
        rewrite Ef. assert (tge t' t = true) by (apply Z.leb_le; lia). rewrite H0. cbn [negb].
        assert (Tm : tmax t t' = t') by (unfold tmax; destruct (Z.ltb_spec t t'); lia). rewrite Tm.
        assert (Ok' : zone_ok tl occ t' exec r) by (split; [exact G2|]; exists l; auto).
        destruct (match scheduled with [] => true | _ => false end || teq t t') eqn:C.
        + apply IH.
          * assert (R := rank_le t t' ltac:(lia)). cbn [length] in F. nia.
          * rewrite app_length. cbn [length] in *. lia.
          * intros x X. apply Inc. rewrite !in_app_iff in *. cbn in *. tauto.
          * intros x X. rewrite in_app_iff. destruct (Cov x X) as [[->|Y]|Y]; cbn; tauto.
          * lia.
          * intros x X. apply in_app_iff in X as [X|[<-|[]]]; [|exact Ok'].
            apply orb_true_iff in C as [C|C]; [destruct scheduled; [destruct X|discriminate]|]. apply Z.eqb_eq in C. subst t'. apply Ok, X.
        + apply orb_false_iff in C as [_ C]. apply Z.eqb_neq in C. apply IH.
          * assert (Lt : (rank t' < rank t)%nat).
            { apply rank_lt; [lia|]. unfold cands. apply in_concat. eexists. split; [apply in_map_iff; exists r; split; [reflexivity|exact Hr]|]. rewrite El. destruct G4 as [G4|[G4|G4]]; [congruence|right; exact G4|left; symmetry; exact G4]. }
            rewrite app_length. cbn [length] in *. nia.
          * rewrite app_length. cbn [length] in *. lia.
          * intros x X. apply Inc. rewrite !in_app_iff in *. cbn in *. tauto.
          * intros x X. rewrite in_app_iff. destruct (Cov x X) as [[->|Y]|Y]; cbn; tauto.
          * lia.
          * intros x [<-|[]]. exact Ok'.
    Qed.
    Lemma cands_length : length cands = list_sum (map (fun r => match tl (fst r) with Some l => S (length l) | None => O end) zones).
    Proof. unfold cands. clear. induction zones as [|r zs IH]; cbn; [reflexivity|]. rewrite app_length, IH. f_equal. destruct (tl (fst r)); cbn; rewrite ?map_length; reflexivity. Qed.
    Lemma find_ok : exists t, find_min_zone_time cost tl zones parent exec = Some t /\ parent <= t <= Z.max parent (Z.max 0 H + 1) /\ forall r, In r zones -> zone_ok tl occ t exec r.
    Proof.
      apply loop_ok.
      - assert (R : (rank parent <= length cands)%nat) by (unfold rank; clear; induction cands as [|c l IH]; cbn; [lia|]; destruct (parent <? c); cbn; lia).
        unfold zones_fuel. rewrite cands_length in R. nia.
      - cbn. lia.
      - rewrite app_nil_r. apply incl_refl.
      - auto.
      - lia.
      - intros r [].
    Qed.
  End Search.

  Lemma can_ok tl occ H t exec : winv start tl occ H -> 0 <= t -> 0 <= exec -> t + exec <= TIME_INF ->
    forall zones, (forall r, In r zones -> start (fst r) <> None) ->
    exists b, can_schedule_zones cost tl zones t exec = Some b /\ (b = true -> forall r, In r zones -> zone_ok tl occ t exec r).
  Proof.
    intros W Ht He Hb. induction zones as [|[z q] zones IH]; intros Hz; cbn [can_schedule_zones]; [exists true; split; [reflexivity|intros _ r []]|].
    assert (Hz0 := Hz (z, q) (or_introl eq_refl)). cbn [fst] in Hz0. assert (Wz := W z). destruct (start z) as [s0|] eqn:Es; [|congruence]. destruct Wz as (l & El & I). rewrite El.
    rewrite (tadd_id t exec) by lia. set (status := ze_status _).
    destruct (negb (zmatch status q) && (negb (Nat.eqb (zright l (tsub t (cost status q))) (zright l t)) || negb (zinside l (zright l t)))) eqn:C1; [exists false; split; [reflexivity|discriminate]|].
    destruct (forallb _ _) eqn:C2; [|exists false; split; [reflexivity|discriminate]].
    destruct IH as (b & E & Hb'); [intros r Hr; apply Hz; right; exact Hr|]. exists b. split; [exact E|].
    intros -> r [<-|Hr]; [|apply Hb'; auto]. cbn [fst snd].
    destruct (moment_ok s0 l (zbook z occ) H t exec q I Ht He Hb) as [G1 G2]; [|exact C2|split; [exact G1|exists l; auto]].
    fold status. apply andb_false_iff in C1 as [C1|C1]; [left; destruct (zmatch status q); [reflexivity|discriminate]|].
    apply orb_false_iff in C1 as [_ C1]. right. destruct (zinside l (zright l t)); [reflexivity|discriminate].
  Qed.

  Definition served (w : zwork) (occ : list occupation) : Prop :=
    exists t, wish_time (zw_wish w) <= t /\ (forall t0, zw_wish w = Moment t0 -> t = t0) /\
      forall r, In r (zw_zones w) -> In (Oc (zw_index w) (fst r) (snd r) t (t + zw_exec w)) occ.
  Lemma run_ok : forall ws tl occ H n, winv start tl occ H -> 0 <= H -> (forall o, In o occ -> oc_work o < n) ->
    (forall w, In w ws -> n <= zw_index w) -> well_formed start ws ->
    H + fold_right Z.add 0 (map (fun w => wish_time (zw_wish w) + zw_exec w + 1) ws) <= TIME_INF ->
    exists tl' occ' H', run_works cost (tl, occ) ws = Some (tl', occ') /\ winv start tl' occ' H' /\ (exists more, occ' = occ ++ more) /\
      forall w, In w ws -> served w occ' \/ exists t0, zw_wish w = Moment t0.
  Proof.
    induction ws as [|w ws IH]; intros tl occ H n W H0 Hn Hidx Wf HH; cbn [run_works].
    - exists tl, occ, H. split; [reflexivity|]. split; [exact W|]. split; [exists []; rewrite app_nil_r; reflexivity|intros w []].
    - destruct Wf as [Wz Wt [Wn1 Wn2] _]. destruct (Wz w (or_introl eq_refl)) as [Nd Hz]. destruct (Wt w (or_introl eq_refl)) as [He Hw].
      cbn [map fold_right] in HH. inversion Wn1 as [|? ? Sd Fa]; subst. rewrite Forall_forall in Fa.
      assert (Rest0 : 0 <= fold_right Z.add 0 (map (fun w => wish_time (zw_wish w) + zw_exec w + 1) ws)).
      { clear - Wt. assert (forall w, In w ws -> 0 <= zw_exec w /\ 0 <= wish_time (zw_wish w)) by (intros x X; apply Wt; right; exact X). clear Wt.
        induction ws as [|x ws IH]; cbn; [lia|]. assert (X := H x (or_introl eq_refl)). assert (forall w, In w ws -> 0 <= zw_exec w /\ 0 <= wish_time (zw_wish w)) by (intros y Y; apply H; right; exact Y). specialize (IH H0). lia. }
      set (rest := fold_right Z.add 0 (map (fun w => wish_time (zw_wish w) + zw_exec w + 1) ws)) in *.
      assert (Wf' : well_formed start ws).
      { constructor; [intros x X; apply Wz; right; exact X|intros x X; apply Wt; right; exact X|split; [exact Sd|intros x X; apply Wn2; right; exact X]|fold rest; lia]. }
      assert (Fin : forall t, wish_time (zw_wish w) <= t <= Z.max (wish_time (zw_wish w)) (Z.max 0 H + 1) -> (forall t0, zw_wish w = Moment t0 -> t = t0) ->
         (forall r, In r (zw_zones w) -> zone_ok tl occ t (zw_exec w) r) ->
         exists tl' occ' H', match match update_zones cost (zw_index w) tl (zw_zones w) t (zw_exec w) with
                     | None => None
                     | Some (tl', _) => Some (tl', occ ++ occupy w t)
                     end with None => None | Some s' => run_works cost s' ws end = Some (tl', occ') /\ winv start tl' occ' H' /\ (exists more, occ' = occ ++ more) /\
            forall x, In x (w :: ws) -> served x occ' \/ exists t0, zw_wish x = Moment t0).
      { intros t Ht Hm Ok. set (H1 := H + wish_time (zw_wish w) + zw_exec w + 1).
        destruct (update_ok (zw_index w) t (zw_exec w) H1) with (zones := zw_zones w) (tl := tl) (occ := occ) as (tl1 & ts & E & W1); try assumption; try lia.
        - apply Wn2. left. reflexivity.
        - intros z. specialize (W z). destruct (start z); [|exact W]. destruct W as (l & El & I). exists l. split; [exact El|]. eapply zinv_mono; [|exact I]. lia.
        - intros r Hr. split; [apply Ok, Hr|]. split; [apply Hz, Hr|]. intros o Ho _. specialize (Hn o Ho). specialize (Hidx w (or_introl eq_refl)). lia.
        - rewrite E. fold (occupy w t) in W1.
          destruct (IH tl1 (occ ++ occupy w t) H1 (zw_index w + 1) W1) as (tl' & occ' & H' & E' & W' & (more & Em) & Sv); try assumption; try lia.
          + intros o Ho. apply in_app_iff in Ho as [Ho|Ho]; [specialize (Hn o Ho); specialize (Hidx w (or_introl eq_refl)); lia|]. unfold occupy in Ho. apply in_map_iff in Ho as (r & <- & _). cbn. lia.
          + intros x X. specialize (Fa (zw_index x) (in_map _ _ _ X)). lia.
          + exists tl', occ', H'. split; [exact E'|]. split; [exact W'|]. split; [exists (occupy w t ++ more); rewrite Em, app_assoc; reflexivity|].
            intros x [<-|X]; [|apply Sv, X]. left. exists t. split; [lia|]. split; [exact Hm|]. intros r Hr. rewrite Em. apply in_app_iff. left. apply in_app_iff. right. unfold occupy. apply in_map_iff. exists r. auto. }
      cbn [run_work]. destruct (zw_wish w) as [parent|t] eqn:Ew; cbn [wish_time] in *.
      + destruct (find_ok tl occ H (zw_zones w) parent (zw_exec w) W Nd Hz Hw He ltac:(lia)) as (t & E & T1 & T2). rewrite E.
        apply Fin; [exact T1|intros ? [=]|exact T2].
      + destruct (can_ok tl occ H t (zw_exec w) W Hw He ltac:(lia) (zw_zones w) Hz) as ([|] & E & T2); rewrite E.
        * apply Fin; [lia|intros t0 [= <-]; reflexivity|apply T2; reflexivity].
        * destruct (IH tl occ H n W) as (tl' & occ' & H' & E' & W' & Em & Sv); try assumption; try lia.
          { intros x X. apply Hidx. right. exact X. }
          exists tl', occ', H'. split; [exact E'|]. split; [exact W'|]. split; [exact Em|]. intros x [<-|X]; [right; eauto|apply Sv, X].
  Qed.
End Zones.

(** ** C45 *)
(** If changing a status takes no time, then whatever works come, the search for a start and
    the check of a moment succeed, every work that asked for the earliest moment gets all its
    zones at one moment not before its parents, and no two works that need different statuses
    of a zone overlap. *)
Theorem zones_never_conflict cost start ws : (forall s q, s <> q -> cost s q = 0) -> well_formed start ws ->
  exists tl occ, run_works cost (zones_start start, []) ws = Some (tl, occ) /\
    (forall w, In w ws -> served w occ \/ exists t, zw_wish w = Moment t) /\
    (forall o o', In o occ -> In o' occ -> oc_zone o = oc_zone o' -> conflict (oc_status o) (oc_status o') ->
       oc_finish o <= oc_start o' \/ oc_finish o' <= oc_start o).
Proof.
  intros C Wf. destruct (run_ok cost C start ws (zones_start start) [] 0 0) as (tl & occ & H & E & W & _ & Sv).
  - intros z. unfold zones_start. destruct (start z) as [s|]; [|reflexivity]. cbn. eexists. split; [reflexivity|].
    constructor; [repeat constructor|reflexivity|intros b []|intros b b' []].
  - lia.
  - intros o [].
  - intros w Hw. apply (wf_numbers _ _ Wf), Hw.
  - exact Wf.
  - assert (X := wf_horizon _ _ Wf). lia.
  - exists tl, occ. split; [exact E|]. split; [exact Sv|]. intros o o' Ho Ho' Ez Cf.
    specialize (W (oc_zone o)).
    assert (B1 : In (Bk (oc_work o) (oc_status o) (oc_start o) (oc_finish o)) (zbook (oc_zone o) occ)) by (apply zbook_in; eauto).
    assert (B2 : In (Bk (oc_work o') (oc_status o') (oc_start o') (oc_finish o')) (zbook (oc_zone o) occ)) by (apply zbook_in; eauto).
    destruct (start (oc_zone o)) as [s0|] eqn:Es.
    + destruct W as (l & El & I). destruct (zi_free _ _ _ _ I _ _ B1 B2 Cf) as [F|F]; apply klt_time in F; cbn in F; auto.
    + exfalso.
      (* an unknown zone is never occupied *)
      assert (G : forall ws tl0 occ0, (forall w r, In w ws -> In r (zw_zones w) -> start (fst r) <> None) -> (forall x, In x occ0 -> start (oc_zone x) <> None) ->
         run_works cost (tl0, occ0) ws = Some (tl, occ) -> forall x, In x occ -> start (oc_zone x) <> None).
      { clear. induction ws as [|w ws IH]; intros tl0 occ0 Hz H0 R x Hx; cbn [run_works] in R; [injection R as <- <-; apply H0, Hx|].
        destruct (run_work cost (tl0, occ0) w) as [[tl1 occ1]|] eqn:E; [|discriminate].
        refine (IH tl1 occ1 _ _ R x Hx); [intros w' r W' R'; apply (Hz w' r (or_intror W') R')|].
        assert (A : occ1 = occ0 \/ exists t, occ1 = occ0 ++ occupy w t).
        { cbn [run_work] in E. destruct (zw_wish w).
          - destruct (find_min_zone_time _ _ _ _ _); [|discriminate]. destruct (update_zones _ _ _ _ _ _) as [[? ?]|]; [|discriminate]. injection E as _ <-. eauto.
          - destruct (can_schedule_zones _ _ _ _ _) as [[|]|]; [|injection E as _ <-; auto|discriminate]. destruct (update_zones _ _ _ _ _ _) as [[? ?]|]; [|discriminate]. injection E as _ <-. eauto. }
        intros y Hy. destruct A as [-> |(t & ->)]; [apply H0, Hy|]. apply in_app_iff in Hy as [Hy|Hy]; [apply H0, Hy|].
        unfold occupy in Hy. apply in_map_iff in Hy as (r & <- & Hr). cbn. apply (Hz w r (or_introl eq_refl) Hr). }
      refine (G ws (zones_start start) [] _ _ E o Ho Es); [intros w r Hw Hr; apply (wf_zones _ _ Wf w Hw), Hr|intros x []].
Qed.
Print Assumptions zones_never_conflict.

(** Two zones, both open (1): works that need them open, closed (2) or do not care. *)
Definition zx_start (z : nat) : option nat := if Nat.leb z 1 then Some 1%nat else None.
Definition zx_works : list zwork :=
  [ZW 1 [(0, 1)]%nat 10 (Earliest 0); ZW 2 [(0, 2); (1, 2)]%nat 5 (Earliest 3); ZW 3 [(1, 1)]%nat 4 (Earliest 2);
   ZW 4 [(0, 1)]%nat 1 (Moment 8); ZW 5 [(0, 0)]%nat 7 (Earliest 1); ZW 6 [(1, 2); (0, 1)]%nat 3 (Earliest 0); ZW 7 [(0, 2)]%nat 1 (Moment 9)].
Example zx_ok : well_formed zx_start zx_works.
Proof.
  constructor.
  - intros w Hw. cbn in Hw. repeat destruct Hw as [<-|Hw]; try destruct Hw; cbn; (split; [repeat constructor; cbn; intuition discriminate|]); intros r Hr; repeat destruct Hr as [<-|Hr]; try destruct Hr; discriminate.
  - intros w Hw. cbn in Hw. repeat destruct Hw as [<-|Hw]; try destruct Hw; cbn; lia.
  - split; [cbn; repeat constructor|]. intros w Hw. cbn in Hw. repeat destruct Hw as [<-|Hw]; try destruct Hw; cbn; lia.
  - vm_compute. discriminate.
Qed.

Example zx_run : option_map (fun r => map (fun o => (oc_work o, oc_zone o, oc_status o, oc_start o)) (snd r)) (run_works (fun _ _ => 0) (zones_start zx_start, []) zx_works) =
  Some [(1, 0%nat, 1%nat, 0); (2, 0%nat, 2%nat, 10); (2, 1%nat, 2%nat, 10); (3, 1%nat, 1%nat, 2); (4, 0%nat, 1%nat, 8); (5, 0%nat, 0%nat, 1); (6, 1%nat, 2%nat, 15); (6, 0%nat, 1%nat, 15)].
Proof. vm_compute. reflexivity. Qed.

(** ** Findings: when a change of status takes time *)
(** A zone is released too early: the event of the end is as much before the end of the work
    as the change took. Work 1 closes the zone (5 units) and works from 5 to 15; work 2, which
    needs it open, starts at 10. *)
Definition slow_close (s q : nat) : Z := if Nat.eqb q 2 then 5 else 0.
Theorem zone_released_early :
  option_map (fun r => map (fun o => (oc_work o, oc_status o, oc_start o, oc_finish o)) (snd r))
    (run_works slow_close (zones_start (fun _ => Some 1%nat), []) [ZW 1 [(0, 2)]%nat 10 (Earliest 0); ZW 2 [(0, 1)]%nat 3 (Earliest 0)])
  = Some [(1, 2%nat, 5, 15); (2, 1%nat, 10, 13)].
Proof. vm_compute. reflexivity. Qed.
(** A change can take place while the zone is in use: if the search runs past the last event,
    it forgets the time of the change. Work 1 keeps the zone closed from 10 to 20; work 2 gets
    21 as its start and the zone is being opened for it from 16 on. *)
Definition slow_open (s q : nat) : Z := if Nat.eqb q 1 then 5 else 0.
Theorem zone_changed_in_use :
  exists tl occ tl', run_works slow_open (zones_start (fun _ => Some 1%nat), []) [ZW 1 [(0, 2)]%nat 10 (Earliest 10)] = Some (tl, occ) /\
    occ = [Oc 1 0 2 10 20] /\ find_min_zone_time slow_open tl [(0, 1)]%nat 0 30 = Some 21 /\
    update_zones slow_open 2 tl [(0, 1)]%nat 21 30 = Some (tl', [ZT 0 2 1 16 21]).
Proof. eexists. eexists. eexists. split; [vm_compute; reflexivity|]. split; [reflexivity|]. split; vm_compute; reflexivity. Qed.
