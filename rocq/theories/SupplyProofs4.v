(** The answers of the supply are consistent; the stock of a platform; shortest routes have no
    road twice. *)
From Coq Require Import ZArith List Bool Lia Arith Sorted Permutation ZifyBool ZifyNat.
From Verif Require Import TimeModel MomentumSpec SupplyModel SupplySpec SupplyProofs SupplyProofs2 SupplyProofs3 LandscapeModel LandscapeProofs LandscapeTheorems.
Import ListNotations.
Local Open Scope Z_scope.

(** ** Shortest routes *)
Lemma route_from joins A u v ids d k : route joins A u v ids d -> (forall k u v w, joined joins k u v w -> 0 < w) -> In k ids ->
  exists x y w, joined joins k x y w /\ w <= d /\ (y = v \/ exists i2 d2, route joins A y v i2 d2 /\ w + d2 <= d).
Proof.
  intros R Hpos. induction R as [k' u v w Hk Hj|k' u m v w ids d Hk Hj Hr IH]; intros Hin.
  - destruct Hin as [<-|[]]. exists u, v, w. split; [exact Hj|]. split; [lia|left; reflexivity].
  - assert (Hw := Hpos _ _ _ _ Hj). destruct Hin as [<-|Hin].
    + exists u, m, w. split; [exact Hj|]. assert (0 < d) by (clear - Hr Hpos; induction Hr; [eauto|assert (0 < w) by eauto; lia]). split; [lia|]. right. exists ids, d. split; [exact Hr|lia].
    + destruct (IH Hin) as (x & y & w' & H1 & H2 & H3). exists x, y, w'. split; [exact H1|]. split; [lia|]. destruct H3 as [H3|(i2 & d2 & H3 & H4)]; [left; exact H3|].
      right. exists i2, d2. split; [exact H3|lia].
Qed.
Lemma shortest_nodup n joins A u v ids d : good_roads n joins -> route joins A u v ids d -> u <> v ->
  (forall ids' d', route joins A u v ids' d' -> d <= d') -> NoDup ids.
Proof.
  intros G R. assert (Hpos := gr_pos _ _ G). induction R as [k u v w Hk Hj|k u m v w ids d Hk Hj Hr IH]; intros Hne Hmin; [constructor; [intros []|constructor]|].
  assert (Hw := Hpos _ _ _ _ Hj). destruct (route_range _ _ _ _ _ _ _ G Hr) as (_ & _ & Hd).
  assert (Hm : m <> v).
  { intros ->. assert (X := Hmin [k] w (route_one _ _ _ _ _ _ Hk Hj)). lia. }
  constructor.
  - intros Hin. destruct (route_from _ _ _ _ _ _ k Hr Hpos Hin) as (x & y & w' & Hj' & Hle & Hrest).
    assert (Hy : w' = w /\ (y = m \/ y = u)).
    { destruct Hj as [Hj|Hj], Hj' as [Hj'|Hj']; rewrite Hj in Hj'; injection Hj' as; subst; auto. }
    destruct Hy as [-> [->| ->]]; (destruct Hrest as [Hrest|(i2 & d2 & R2 & Hd2)]; [congruence|]).
    + assert (X := Hmin (k :: i2) (w + d2) (route_cons _ _ _ _ _ _ _ _ _ Hk Hj R2)). lia.
    + assert (X := Hmin i2 d2 R2). lia.
  - apply IH; [exact Hm|]. intros ids' d' R'. assert (X := Hmin (k :: ids') (w + d') (route_cons _ _ _ _ _ _ _ _ _ Hk Hj R')). lia.
Qed.
(** landscape.py:161-194 as it is used by hybrid_supply_timeline.py:358-359: among the roads
    with enough bandwidth. *)
Fixpoint somes {A} (l : list (option A)) : list A := match l with [] => [] | Some x :: r => x :: somes r | None :: r => somes r end.
Definition wide_roads (joins : list (nat * nat * Z)) (bandwidth : nat -> Z) (k : Z) : list nat := filter (fun r => k <=? bandwidth r) (seq 0 (length joins)).
Definition site_route (n : nat) (joins : list (nat * nat * Z)) (bandwidth : nat -> Z) (k : Z) (a b : nat) : list nat :=
  match construct_route n joins (wide_roads joins bandwidth k) a b with Some l => somes l | None => [] end.
Lemma site_route_ok n joins bandwidth k a b : good_roads n joins -> (a < n)%nat -> (b < n)%nat -> a <> b -> route_ok bandwidth k (site_route n joins bandwidth k a b).
Proof.
  intros G Ha Hb Hab. unfold site_route.
  destruct (construct_route_correct n joins (wide_roads joins bandwidth k) a b G Ha Hb Hab) as [(ids & d & E & Hne & R & Hmin)|(E & _)]; rewrite E; [|split; [constructor|intros ? []]].
  assert (Es : somes (map Some ids) = ids) by (clear; induction ids as [|i ids IH]; simpl; congruence). rewrite Es. split.
  - apply (shortest_nodup n joins _ a b ids d G R Hab Hmin).
  - clear - R. induction R as [r u v w Hk Hj|r u m v w ids d Hk Hj Hr IH]; intros x Hx; unfold wide_roads in *; [destruct Hx as [<-|[]]|destruct Hx as [<-|Hx]; [|auto]];
      apply filter_In in Hk as [_ Hk]; lia.
Qed.

(** ** The same time is found again *)
Section Again.
  Variable route : Z -> nat -> nat -> list nat.
  Variable overcome : nat -> Z.
  Variable holders : nat -> list depot.
  Variable storage : nat -> nat -> Z.

  Lemma choose_rel s p r D T t ds : D <= T -> forall curD curT c, choose route overcome s p r D t ds curD = Fine c ->
    exists c', choose route overcome s p r T t ds curT = Fine c' /\ (ds <> [] -> arrival c < D -> arrival c' <= T) /\
      (D < T -> arrival c = T -> (arrival curD = T -> arrival curT = T) -> arrival c' = T).
  Proof.
    intros HDT. induction ds as [|d ds IH]; intros curD curT c H.
    - simpl in *. injection H as <-. exists curT. split; [reflexivity|]. split; [congruence|]. auto.
    - cbn [choose] in *. destruct (try_depot route overcome s p r t d) as [f| |]; cbn [bind] in *; try discriminate.
      set (nD := if (_ || _ : bool) then Some f else curD) in H. set (nT := if (_ || _ : bool) then Some f else curT).
      destruct (IH nD nT c H) as (c' & E & C1 & C2). exists c'. split; [exact E|].
      assert (HnD : (nD = Some f /\ (arrival curD < D \/ (D < arrival curD /\ f_arrives f < arrival curD))) \/ (nD = curD /\ D <= arrival curD /\ (D < arrival curD -> arrival curD <= f_arrives f))).
      { unfold nD. destruct (Z.ltb_spec D (arrival curD)), (Z.ltb_spec (f_arrives f) (arrival curD)), (Z.ltb_spec (arrival curD) D); simpl; try lia; auto 8; right; split; try reflexivity; lia. }
      assert (HnT : (nT = Some f /\ (arrival curT < T \/ (T < arrival curT /\ f_arrives f < arrival curT))) \/ (nT = curT /\ T <= arrival curT /\ (T < arrival curT -> arrival curT <= f_arrives f))).
      { unfold nT. destruct (Z.ltb_spec T (arrival curT)), (Z.ltb_spec (f_arrives f) (arrival curT)), (Z.ltb_spec (arrival curT) T); simpl; try lia; auto 8; right; split; try reflexivity; lia. }
      split.
      + intros _ Hc. destruct ds as [|d' ds']; [|apply C1; [discriminate|exact Hc]]. simpl in E, H. injection E as <-. injection H as <-.
        destruct HnD as [[EnD HnD]|[EnD HnD]]; rewrite EnD in Hc; [|lia]. simpl in Hc. destruct HnT as [[EnT HnT]|[EnT HnT]]; rewrite EnT; [simpl; lia|]. lia.
      + intros HDT' Hc Hcur. apply C2; [exact HDT'|exact Hc|]. intros HnDT. destruct HnD as [[EnD HnD]|[EnD HnD]]; rewrite EnD in HnDT.
        * simpl in HnDT. destruct HnT as [[EnT HnT]|[EnT HnT]]; rewrite EnT; [exact HnDT|lia].
        * specialize (Hcur HnDT). destruct HnT as [[EnT HnT]|[EnT HnT]]; rewrite EnT; [lia|exact Hcur].
  Qed.
  Lemma search_again s p r D ds f : ds <> [] -> 0 <= D -> D <= f_arrives f -> forall fuel fuel' t curD curT, (fuel <= fuel')%nat ->
    arrival curD < D -> arrival curT <= f_arrives f -> search route overcome fuel s p r D t ds curD = Fine (Some f) ->
    exists g, search route overcome fuel' s p r (f_arrives f) t ds curT = Fine (Some g) /\ f_arrives g = f_arrives f.
  Proof.
    intros Hds HD HDT. set (T := f_arrives f) in *.
    assert (Done : forall fuel' t curT, arrival curT = T -> exists g, search route overcome fuel' s p r T t ds curT = Fine (Some g) /\ f_arrives g = T).
    { intros fuel' t [g|] Hg; [|simpl in Hg; lia]. exists g. split; [|exact Hg]. destruct fuel'; cbn [search]; rewrite Hg, Z.ltb_irrefl; reflexivity. }
    induction fuel as [|fuel IH]; intros fuel' t curD curT Hf HcD HcT H; cbn [search] in H; (destruct (Z.ltb_spec (arrival curD) D); [|lia]); [discriminate|].
    destruct (Z.eq_dec (arrival curT) T) as [Eq|Ne]; [apply Done; exact Eq|].
    destruct fuel' as [|fuel']; [lia|]. cbn [search]. destruct (Z.ltb_spec (arrival curT) T); [|lia].
    destruct (choose route overcome s p r D t ds curD) as [c| |] eqn:Ec; cbn [bind] in H; try discriminate.
    destruct (choose_rel s p r D T t ds HDT curD curT c Ec) as (c' & Ec' & R1 & R2). rewrite Ec'. cbn [bind].
    destruct (Z.lt_ge_cases (arrival c) D) as [L|L].
    - specialize (R1 Hds L). apply (IH fuel' (t + 1) c c'); [lia|exact L|exact R1|exact H].
    - assert (c = Some f). { destruct fuel; cbn [search] in H; (destruct (Z.ltb_spec (arrival c) D); [lia|congruence]). } subst c. apply Done.
      destruct (Z.eq_dec D T) as [EDT|NDT]; [|apply R2; [lia|reflexivity|lia]].
      (* the same deadline *)
      rewrite EDT in Ec. destruct ds as [|d ds']; [congruence|]. cbn [choose] in Ec, Ec'. destruct (try_depot route overcome s p r t d) as [g| |]; cbn [bind] in Ec, Ec'; try discriminate.
      destruct (Z.ltb_spec (arrival curD) T); [|lia]. destruct (Z.ltb_spec (arrival curT) T); [|lia]. rewrite !orb_true_r in *. rewrite Ec in Ec'. injection Ec' as <-. reflexivity.
  Qed.
  Lemma search_late s p r D ds fuel t cur c : search route overcome fuel s p r D t ds cur = Fine c -> D <= arrival c.
  Proof.
    revert t cur. induction fuel as [|fuel IH]; intros t cur H; cbn [search] in H; destruct (Z.ltb_spec (arrival cur) D); try discriminate; try (injection H as <-; lia).
    destruct (choose route overcome s p r D t ds cur); try discriminate. cbn [bind] in H. apply (IH _ _ H).
  Qed.
  Lemma find_supply_late s p D r f : find_supply route overcome holders s p D r = Fine f -> D <= f_arrives f.
  Proof.
    unfold find_supply. destruct (able holders s p r); try discriminate. cbn [bind].
    destruct (search route overcome (search_rounds D) s p r D 0 a None) as [c| |] eqn:E; try discriminate. cbn [bind]. apply search_late in E. destruct c as [g|]; [|discriminate].
    intros [= <-]. exact E.
  Qed.
  Lemma find_supply_again s p D r f : 0 <= D -> find_supply route overcome holders s p D r = Fine f ->
    exists g, find_supply route overcome holders s p (f_arrives f) r = Fine g /\ f_arrives g = f_arrives f.
  Proof.
    intros HD H. assert (Hl := find_supply_late _ _ _ _ _ H). unfold find_supply in *. destruct (able_ok holders s p r) as [E|(ds & E & Hne & _)]; rewrite E in *; [discriminate|].
    cbn [bind] in *. destruct (search route overcome (search_rounds D) s p r D 0 ds None) as [c| |] eqn:Es; try discriminate. cbn [bind] in H. destruct c as [f'|]; [|discriminate]. injection H as ->.
    destruct (search_again s p r D ds f Hne HD Hl (search_rounds D) (search_rounds (f_arrives f)) 0 None None) as (g & Eg & Hg); [unfold search_rounds; lia|simpl; lia|simpl; lia|exact Es|].
    rewrite Eg. exists g. auto.
  Qed.

  (** ** Platforms *)
  Definition by_time (l : events) : Prop := StronglySorted (fun x y => ev_time x <= ev_time y) l.
  Lemma upto_time l t : by_time l -> l = fst (upto l t) ++ snd (upto l t) /\ (forall e, In e (fst (upto l t)) -> ev_time e <= t) /\ (forall e, In e (snd (upto l t)) -> t < ev_time e).
  Proof.
    intros H. unfold upto. destruct (span_spec (fun e => ev_time e <=? t) l) as (E & A & B). split; [exact E|]. split.
    - intros e He. apply A in He. lia.
    - unfold by_time in H. rewrite E in H. apply sorted_app in H as (_ & H & _). destruct (snd (span _ l)) as [|e r]; [intros ? []|]. apply StronglySorted_inv in H as [_ F].
      intros x [<-|Hx]; [lia|]. rewrite Forall_forall in F. specialize (F x Hx). lia.
  Qed.
  Lemma add_event_time l t c : by_time l -> by_time (add_event l t c).
  Proof.
    intros H. unfold add_event. destruct (upto_time l t H) as (E & A & B). destruct (upto l t) as [a b]. cbn [fst snd] in *. rewrite E in H. unfold by_time in *.
    apply sorted_app in H as (H1 & H2 & H3). apply sorted_app. split; [exact H1|]. split.
    - constructor; [exact H2|]. apply Forall_forall. intros x Hx. specialize (B x Hx). simpl. lia.
    - intros x y Hx [<-|Hy]; [simpl; apply A, Hx|apply H3; assumption].
  Qed.
  Definition plat_ok (s : supply) : Prop := forall p m l, su_plat s p m = Some l -> by_time l.
  Lemma update_platform_time plat us plat' : (forall m l, plat m = Some l -> by_time l) -> update_platform plat us = Fine plat' -> forall m l, plat' m = Some l -> by_time l.
  Proof.
    revert plat. induction us as [|[[m c] t] us IH]; intros plat H E; simpl in E; [injection E as <-; exact H|].
    destruct (plat m) as [l|] eqn:El; [|discriminate]. refine (IH _ _ E). intros k x. unfold upd. destruct (Nat.eqb_spec k m) as [->|]; [|apply H].
    intros [= <-]. apply add_event_time. apply (H m l El).
  Qed.
  Lemma upd_plat_ok s plat p m v r : plat_ok s -> (forall k l, plat k = Some l -> by_time l) -> plat_ok (Sup m v r (upd (su_plat s) p plat)).
  Proof. intros H1 H2 q k l. cbn [su_plat]. unfold upd. destruct (Nat.eqb_spec q p); [apply H2|apply H1]. Qed.
  Lemma deliver_plat s p deadline needs o t s' : plat_ok s -> deliver route overcome holders storage s p deadline needs = Fine (o, t, s') -> plat_ok s'.
  Proof.
    intros H. unfold deliver. destruct needs as [|nd needs']; [intros [= <- <- <-]; exact H|]. set (needs := nd :: needs').
    destruct (to_deliver storage (su_plat s p) p needs deadline) as [r| |]; try discriminate. cbn [bind].
    destruct (match r with [] => _ | _ => _ end) as [ok| |]; try discriminate. cbn [bind]. destruct ok.
    - destruct (update_platform _ _) as [plat| |] eqn:E; try discriminate. cbn [bind]. intros [= <- <- <-]. apply upd_plat_ok; [exact H|].
      apply (update_platform_time _ _ _ ltac:(intros k l; apply H) E).
    - destruct r as [|r0 r']; [intros [= <- <- <-]; exact H|]. unfold supply_resources.
      destruct (find_supply _ _ _ _ _ _ _) as [f| |]; try discriminate. cbn [bind].
      destruct (update_platform _ _) as [plat| |] eqn:E; try discriminate. cbn [bind].
      destruct (book_mats _ _ _) as [mats| |]; try discriminate. cbn [bind]. destruct (book (su_vehs s (dp_id (f_depot f))) _ _ _) as [vehs|]; try discriminate.
      destruct (book_roads _ _) as [roads| |]; try discriminate. cbn [bind]. intros [= <- <- <-]. apply upd_plat_ok; [exact H|].
      apply (update_platform_time _ _ _ ltac:(intros k l; apply H) E).
  Qed.
  Lemma history_plat calls s out s' : plat_ok s -> history_of route overcome holders storage s calls = Fine (out, s') -> plat_ok s'.
  Proof.
    revert s out. induction calls as [|c calls IH]; intros s out H E; cbn [history_of] in E; [injection E as <- <-; exact H|].
    destruct (deliver route overcome holders storage s (c_platform c) (c_deadline c) (c_needs c)) as [[[o t] s1]| |] eqn:Ed; try discriminate; [|apply (IH _ _ H E)].
    destruct (history_of route overcome holders storage s1 calls) as [[out1 s2]| |] eqn:Eh; try discriminate. cbn [bind fst snd] in E. injection E as <- <-.
    apply (IH s1 out1); [|exact Eh]. apply (deliver_plat _ _ _ _ _ _ _ H Ed).
  Qed.
  Lemma start_plat stock vehicles bandwidth material : plat_ok (start_supply stock vehicles bandwidth material).
  Proof. intros p m l. cbn [start_supply su_plat]. destruct (material p m); [|discriminate]. intros [= <-]. repeat constructor. Qed.

  (** Nothing happens on the platform between two moments. *)
  Lemma quiet_upto l t t' : by_time l -> t <= t' -> (forall e, In e l -> ev_time e <= t \/ t' < ev_time e) -> upto l t' = upto l t.
  Proof.
    intros H L Q. destruct (upto_time l t H) as (E & A & B). destruct (upto l t) as [a b]. cbn [fst snd] in *. apply upto_unique; [exact E| |].
    - intros e He. specialize (A e He). lia.
    - intros e He. specialize (B e He). destruct (Q e); [rewrite E; apply in_or_app; auto|lia|lia].
  Qed.
  Lemma later_shrinks l t t' : by_time l -> t <= t' -> (length (snd (upto l t')) <= length (snd (upto l t)))%nat.
  Proof.
    intros H L. destruct (upto_time l t H) as (E & A & B). destruct (upto_time l t' H) as (E' & A' & B').
    destruct (Nat.le_gt_cases (length (snd (upto l t'))) (length (snd (upto l t)))) as [?|G]; [assumption|]. exfalso.
    set (a := fst (upto l t)) in *. set (b := snd (upto l t)) in *. set (a' := fst (upto l t')) in *. set (b' := snd (upto l t')) in *.
    assert (length l = length a + length b)%nat by (rewrite E at 1; apply app_length). assert (length l = length a' + length b')%nat by (rewrite E' at 1; apply app_length).
    destruct (nth_error l (length a')) as [z|] eqn:Ez; [|apply nth_error_None in Ez; lia].
    assert (Hz1 : In z a) by (apply nth_error_In with (length a'); rewrite E, nth_error_app1 in Ez by lia; exact Ez).
    assert (Hz2 : In z b') by (apply nth_error_In with 0%nat; rewrite E', nth_error_app2, Nat.sub_diag in Ez by lia; exact Ez).
    specialize (A z Hz1). specialize (B' z Hz2). lia.
  Qed.
  Lemma ready_later plat r t t' : (forall m l, plat m = Some l -> by_time l) -> t <= t' -> platform_ready plat r t = Fine true -> platform_ready plat r t' = Fine true.
  Proof.
    intros H L. induction r as [|[m c] r IH]; simpl; [auto|]. destruct (plat m) as [l|] eqn:El; [|discriminate].
    assert (G := later_shrinks l t t' (H m l El) L). destruct (Nat.ltb_spec 1 (length (snd (upto l t)))); [discriminate|]. destruct (Nat.ltb_spec 1 (length (snd (upto l t')))); [lia|exact IH].
  Qed.
  Lemma to_deliver_quiet plat p r t t' : (forall m n l, In (m, n) r -> plat m = Some l -> upto l t' = upto l t) ->
    to_deliver storage plat p r t' = to_deliver storage plat p r t.
  Proof.
    intros H. induction r as [|[m c] r IH]; simpl; [reflexivity|]. destruct (plat m) as [l|] eqn:El; [|reflexivity].
    rewrite IH by (intros k n x Hk; apply (H k n x); right; exact Hk). unfold available. rewrite (H m c l (or_introl eq_refl) El). reflexivity.
  Qed.
  Lemma last_times_spec plat r t T : (forall m l, plat m = Some l -> by_time l) -> last_times plat r t = Fine T ->
    t <= T /\ forall m n l, In (m, n) r -> plat m = Some l -> forall e, In e l -> ev_time e <= T.
  Proof.
    intros H. revert t. induction r as [|[m c] r IH]; simpl; intros t E; [injection E as ->; split; [lia|intros ? ? ? []]|].
    destruct (plat m) as [l|] eqn:El; [|discriminate]. destruct (IH _ E) as [I1 I2]. split; [lia|]. intros k n x [[= <- <-]|Hk] Hx e He; [|apply (I2 k n x Hk Hx e He)].
    rewrite El in Hx. injection Hx as <-. assert (ev_time e <= time_at l (length l - 1)); [|lia].
    apply In_nth_error in He as [i Hi]. assert (i < length l)%nat by (apply nth_error_Some; congruence).
    destruct (nth_error l (length l - 1)) as [z|] eqn:Ez; [|apply nth_error_None in Ez; lia]. rewrite (time_at_some _ _ _ Ez).
    assert (Hl := H m l El). clear - Hl Hi Ez H0. revert i H0 Hi Ez. induction Hl as [|a l Hl IHl F]; intros i Hil Hi Ez; [destruct i; discriminate|].
    destruct i as [|i].
    - simpl in Hi. injection Hi as <-. destruct (length (a :: l) - 1)%nat as [|j]; simpl in Ez; [injection Ez as <-; lia|]. rewrite Forall_forall in F. apply F. apply nth_error_In in Ez. exact Ez.
    - simpl in Hi, Hil. assert (Ez' : nth_error l (length l - 1) = Some z). { simpl in Ez. rewrite Nat.sub_0_r in Ez. destruct (length l) as [|j]; [lia|]. simpl in Ez. simpl. rewrite Nat.sub_0_r. exact Ez. }
      apply (IHl i); [lia|exact Hi|exact Ez'].
  Qed.
  Lemma ready_none plat r t : (forall m n l, In (m, n) r -> plat m = Some l -> forall e, In e l -> ev_time e <= t) -> (forall m n, In (m, n) r -> plat m <> None) ->
    platform_ready plat r t = Fine true.
  Proof.
    induction r as [|[m c] r IH]; simpl; intros H N; [reflexivity|]. destruct (plat m) as [l|] eqn:El; [|exfalso; apply (N m c); auto].
    assert (E : upto l t = (l, [])) by (apply upto_unique; [rewrite app_nil_r; reflexivity|intros e He; apply (H m c l (or_introl eq_refl) El e He)|intros ? []]).
    rewrite E. cbn [snd length]. apply IH; intros; [eapply H; eauto|eapply N; eauto].
  Qed.
  Lemma last_times_known plat r t T m n : last_times plat r t = Fine T -> In (m, n) r -> plat m <> None.
  Proof.
    revert t. induction r as [|[k c] r IH]; intros t E Hin; [destruct Hin|]. simpl in E. destruct (plat k) eqn:Ep; [|discriminate].
    destruct Hin as [H|Hin]; [injection H as -> ->; congruence|]. apply (IH _ E Hin).
  Qed.

  (** hybrid_supply_timeline.py:60-102: the time that is found is accepted. *)
  Lemma min_time_again s p t needs T : plat_ok s -> 0 <= t -> find_min_material_time route overcome holders storage s p t needs = Fine T ->
    platform_ready (su_plat s p) needs t = Fine false \/ (forall m n l e, In (m, n) needs -> su_plat s p m = Some l -> In e l -> ev_time e <= t \/ T < ev_time e) ->
    t <= T /\ can_schedule route overcome holders storage s p T needs = Fine true /\
    (needs <> [] -> exists r, to_deliver storage (su_plat s p) p needs T = Fine r /\ platform_ready (su_plat s p) needs T = Fine true /\
       (r <> [] -> exists g, find_supply route overcome holders s p T r = Fine g /\ f_arrives g = T)).
  Proof.
    intros H Ht. unfold find_min_material_time, can_schedule. destruct needs as [|nd needs']; [intros [= <-] _; split; [lia|]; split; [reflexivity|congruence]|].
    set (needs := nd :: needs'). unfold platform_time. assert (Hpl : forall m l, su_plat s p m = Some l -> by_time l) by (intros m l; apply H).
    destruct (platform_ready (su_plat s p) needs t) as [ok| |] eqn:Eok; try discriminate. cbn [bind].
    assert (G : forall t1, t <= t1 -> platform_ready (su_plat s p) needs t1 = Fine true ->
      (forall T, (forall m n l e, In (m, n) needs -> su_plat s p m = Some l -> In e l -> ev_time e <= t \/ T < ev_time e) \/ (forall m n l, In (m, n) needs -> su_plat s p m = Some l -> forall e, In e l -> ev_time e <= t1) ->
        t1 <= T -> forall m n l, In (m, n) needs -> su_plat s p m = Some l -> upto l T = upto l t1) ->
      bind (to_deliver storage (su_plat s p) p needs t1) (fun r => match r with [] => Fine t1 | _ :: _ => bind (find_supply route overcome holders s p t1 r) (fun f => Fine (f_arrives f)) end) = Fine T ->
      (forall m n l e, In (m, n) needs -> su_plat s p m = Some l -> In e l -> ev_time e <= t \/ T < ev_time e) \/ (forall m n l, In (m, n) needs -> su_plat s p m = Some l -> forall e, In e l -> ev_time e <= t1) ->
      t <= T /\ (bind (platform_ready (su_plat s p) needs T) (fun ok => if negb ok then Fine false else bind (to_deliver storage (su_plat s p) p needs T) (fun r => match r with [] => Fine true
        | _ :: _ => bind (find_supply route overcome holders s p T r) (fun f => if f_arrives f <? T then Crashed else Fine (f_arrives f =? T)) end)) = Fine true) /\
      (needs <> [] -> exists r, to_deliver storage (su_plat s p) p needs T = Fine r /\ platform_ready (su_plat s p) needs T = Fine true /\
         (r <> [] -> exists g, find_supply route overcome holders s p T r = Fine g /\ f_arrives g = T))).
    { intros t1 Ht1 Hready HQ E Hq. destruct (to_deliver storage (su_plat s p) p needs t1) as [r| |] eqn:Er; try discriminate. cbn [bind] in E.
      assert (HT : t1 <= T). { destruct r as [|r0 r']; [injection E as <-; lia|]. destruct (find_supply route overcome holders s p t1 (r0 :: r')) as [f| |] eqn:Ef; try discriminate. cbn [bind] in E. injection E as <-. apply (find_supply_late _ _ _ _ _ Ef). }
      assert (Eq := to_deliver_quiet (su_plat s p) p needs t1 T (HQ T Hq HT)). rewrite Er in Eq.
      assert (Hr2 := ready_later _ needs t1 T Hpl HT Hready). split; [lia|]. rewrite Hr2. cbn [bind negb]. rewrite Eq. cbn [bind].
      destruct r as [|r0 r']; [split; [reflexivity|]; intros _; exists []; split; [reflexivity|]; split; [reflexivity|congruence]|].
      destruct (find_supply route overcome holders s p t1 (r0 :: r')) as [f| |] eqn:Ef; try discriminate. cbn [bind] in E. injection E as <-.
      destruct (find_supply_again s p t1 (r0 :: r') f ltac:(lia) Ef) as (g & Eg & Hg). rewrite Eg. cbn [bind]. rewrite Hg, Z.ltb_irrefl, Z.eqb_refl. split; [reflexivity|].
      intros _. exists (r0 :: r'). split; [reflexivity|]. split; [reflexivity|]. intros _. exists g. auto. }
    destruct ok; cbn [bind].
    - intros E [Hq|Hq]; [discriminate|]. apply (G t (Z.le_refl t) Eok); [|exact E|left; exact Hq]. intros T' [Hq'|Hq'] HT' m n l Hm Hl; (apply quiet_upto; [apply (Hpl m l Hl)|exact HT'|]).
      + intros e He. apply (Hq' m n l e Hm Hl He).
      + intros e He. left. apply (Hq' m n l Hm Hl e He).
    - intros E _. destruct (last_times (su_plat s p) needs t) as [t1| |] eqn:El; try discriminate. cbn [bind] in E.
      destruct (last_times_spec _ _ _ _ Hpl El) as [L1 L2].
      assert (Hn : forall m n, In (m, n) needs -> su_plat s p m <> None) by (intros m n Hm; apply (last_times_known _ _ _ _ m n El Hm)).
      apply (G t1 L1); [apply ready_none; [exact L2|exact Hn]| |exact E|right; exact L2].
      intros T' _ HT' m n l Hm Hl. apply quiet_upto; [apply (Hpl m l Hl)|exact HT'|]. intros e He. left. apply (L2 m n l Hm Hl e He).
  Qed.
End Again.
