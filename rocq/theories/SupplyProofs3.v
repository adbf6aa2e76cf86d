(** Histories of deliveries. *)
From Coq Require Import ZArith List Bool Lia Arith Sorted Permutation ZifyBool ZifyNat.
From Verif Require Import TimeModel MomentumSpec SupplyModel SupplySpec SupplyProofs SupplyProofs2.
Import ListNotations.
Local Open Scope Z_scope.

Fixpoint total_count (bs : list booking) : Z := match bs with [] => 0 | b :: r => b_count b + total_count r end.
(** The state of the supply, with everything booked so far; no road is used after [M], no
    vehicle after [V]. *)
Record supply_ok (stock : nat -> nat -> option Z) (vehicles bandwidth : nat -> Z) (material : nat -> nat -> option Z)
    (s : supply) (mb : nat -> nat -> list booking) (vb rb : nat -> list booking) (M V : Z) : Prop := {
  so_roads : forall r, tracks (bandwidth r) (su_roads s r) (rb r) /\ (forall b, In b (rb r) -> b_end b <= M) /\ forall x, load (rb r) x <= bandwidth r;
  so_vehs : forall h, tracks (vehicles h) (su_vehs s h) (vb h) /\ forall b, In b (vb h) -> b_end b <= V /\ b_count b = 0;
  so_mats : forall h m, match stock h m, su_mats s h m with
    | Some n, Some l => tracks n l (mb h m) /\ (forall b, In b (mb h m) -> b_start b < TIME_INF /\ b_end b = TIME_INF) /\ total_count (mb h m) <= n
    | None, None => mb h m = []
    | _, _ => False
    end;
  so_plat : forall p m, material p m <> None -> su_plat s p m <> None }.

Lemma load_zero_counts bs t : (forall b, In b bs -> b_count b = 0) -> load bs t = 0.
Proof.
  induction bs as [|b bs IH]; intros H; [reflexivity|]. simpl. rewrite IH by (intros; apply H; right; assumption). rewrite (H b (or_introl eq_refl)).
  destruct (active b t); reflexivity.
Qed.
Lemma load_total bs t : (forall b, In b bs -> b_start b <= t < b_end b) -> load bs t = total_count bs.
Proof.
  induction bs as [|b bs IH]; intros H; [reflexivity|]. simpl. rewrite IH by (intros; apply H; right; assumption). specialize (H b (or_introl eq_refl)).
  unfold active. destruct (Z.leb_spec (b_start b) t), (Z.ltb_spec t (b_end b)); simpl; lia.
Qed.
Lemma load_le_total bs t : (forall b, In b bs -> 0 <= b_count b) -> load bs t <= total_count bs.
Proof.
  induction bs as [|b bs IH]; intros H; [simpl; lia|]. simpl. specialize (IH ltac:(intros; apply H; right; assumption)). specialize (H b (or_introl eq_refl)).
  destruct (active b t); lia.
Qed.
(** What is left in a depot. *)
Lemma left_of_spec n l bs : tracks n l bs -> (forall b, In b bs -> b_start b < TIME_INF /\ b_end b = TIME_INF) -> left_of l = n - total_count bs.
Proof.
  intros T H. unfold left_of. assert (Hs := tk_sorted _ _ _ T). destruct (before_spec l TIME_INF Hs) as (E & A & B).
  assert (Av := tk_avail _ _ _ T (TIME_INF - 1) ltac:(unfold TIME_INF; lia)).
  rewrite E in Av. rewrite avail_app, (avail_none _ (snd _)) in Av by (intros e He; specialize (B e He); lia).
  rewrite avail_all in Av by (intros e He; specialize (A e He); lia). rewrite load_total in Av by (intros b Hb; specialize (H b Hb); lia).
  destruct (last_event (fst (before l TIME_INF))) as [e|] eqn:El; [exact Av|]. exfalso.
  destruct (tk_head _ _ _ T) as [r Hr]. destruct (fst (before l TIME_INF)) as [|x p] eqn:Ep.
  - simpl in E. assert (In (Ev 0 n) (snd (before l TIME_INF))) as Hin by (rewrite <- E, Hr; left; reflexivity). specialize (B _ Hin). simpl in B. unfold TIME_INF in B. lia.
  - destruct (last_event_some (x :: p)) as [y Hy]; [discriminate|congruence].
Qed.
Lemma book_mats_ok (stock : nat -> option Z) t r : 0 <= t < TIME_INF -> NoDup (map fst r) -> (forall m c, In (m, c) r -> 0 <= c) ->
  forall mats mb, (forall m, match stock m, mats m with
    | Some n, Some l => tracks n l (mb m) /\ (forall b, In b (mb m) -> b_start b < TIME_INF /\ b_end b = TIME_INF) /\ total_count (mb m) <= n
    | None, None => mb m = [] | _, _ => False end) ->
  (forall m c, In (m, c) r -> exists l, mats m = Some l /\ c <= left_of l) ->
  exists mats' mb', book_mats mats t r = Fine mats' /\ (forall m, match stock m, mats' m with
    | Some n, Some l => tracks n l (mb' m) /\ (forall b, In b (mb' m) -> b_start b < TIME_INF /\ b_end b = TIME_INF) /\ total_count (mb' m) <= n
    | None, None => mb' m = [] | _, _ => False end) /\ forall m, total_count (mb' m) = total_count (mb m) + total_of m r.
Proof.
  intros Ht. induction r as [|[m c] r IH]; intros N C mats mb S L; [exists mats, mb; simpl; split; [reflexivity|]; split; [exact S|intros; lia]|].
  simpl. destruct (L m c (or_introl eq_refl)) as (l & El & Hl). rewrite El. simpl in N. apply NoDup_cons_iff in N as [N1 N2].
  assert (Sm := S m). rewrite El in Sm. destruct (stock m) as [n|] eqn:En; [|destruct Sm]. destruct Sm as (T & B & Tot).
  rewrite (left_of_spec _ _ _ T B) in Hl. assert (Hc := C m c (or_introl eq_refl)).
  destruct (book_ok _ _ _ c t TIME_INF T) as (l' & El' & T'); [lia|exact Hc| |].
  { intros x Hx. assert (G := load_le_total (mb m) x ltac:(intros b Hb; apply (tk_bookings _ _ _ T b Hb))). lia. }
  rewrite El'. destruct (IH N2 ltac:(intros; apply (C m0); right; assumption) (upd mats m (Some l')) (upd mb m (Bk t TIME_INF c :: mb m))) as (mats' & mb' & E1 & E2 & E3).
  - intros k. unfold upd. destruct (Nat.eqb_spec k m) as [->|Ne]; [|apply S]. rewrite En. split; [exact T'|]. split; [|simpl; lia].
    intros b [<-|Hb]; [simpl; lia|auto].
  - intros k x Hk. destruct (L k x (or_intror Hk)) as (y & Ey & Hy). exists y. split; [|exact Hy]. unfold upd. destruct (Nat.eqb_spec k m) as [->|Ne]; [|exact Ey].
    exfalso. apply N1. apply in_map_iff. exists (m, x). auto.
  - exists mats', mb'. split; [exact E1|]. split; [exact E2|]. intros k. rewrite E3. unfold upd. rewrite (Nat.eqb_sym k m). destruct (Nat.eqb_spec m k) as [->|Ne]; simpl; lia.
Qed.
Lemma update_platform_ok plat us : (forall m c t, In (m, c, t) us -> plat m <> None) ->
  exists plat', update_platform plat us = Fine plat' /\ forall m, plat m <> None -> plat' m <> None.
Proof.
  revert plat. induction us as [|[[m c] t] us IH]; intros plat H; [exists plat; auto|]. simpl. destruct (plat m) as [l|] eqn:El; [|exfalso; apply (H m c t); [left; reflexivity|exact El]].
  destruct (IH (upd plat m (Some (add_event l t (available l t - c))))) as (plat' & E & P).
  - intros k x y Hk. unfold upd. destruct (Nat.eqb_spec k m); [discriminate|]. apply (H k x y). right. exact Hk.
  - exists plat'. split; [exact E|]. intros k Hk. apply P. unfold upd. destruct (Nat.eqb_spec k m); [discriminate|exact Hk].
Qed.
Lemma platform_ready_ok plat r t : (forall m c, In (m, c) r -> plat m <> None) -> exists b, platform_ready plat r t = Fine b.
Proof.
  induction r as [|[m c] r IH]; intros H; [exists true; reflexivity|]. simpl. destruct (plat m) as [l|] eqn:El; [|exfalso; apply (H m c); [left; reflexivity|exact El]].
  destruct (Nat.ltb 1 _); [exists false; reflexivity|]. apply IH. intros; apply (H m0 c0); right; assumption.
Qed.
Lemma to_deliver_ok storage plat p r t : (forall m c, In (m, c) r -> plat m <> None) -> NoDup (map fst r) ->
  exists q, to_deliver storage plat p r t = Fine q /\ NoDup (map fst q) /\
    forall m c, In (m, c) q -> exists n l, In (m, n) r /\ plat m = Some l /\ available l t < n /\ c = storage p m - available l t.
Proof.
  induction r as [|[m c] r IH]; intros H N; [exists []; simpl; repeat split; [constructor|intros ? ? []]|]. simpl in *. apply NoDup_cons_iff in N as [N1 N2].
  destruct (plat m) as [l|] eqn:El; [|exfalso; apply (H m c); [left; reflexivity|exact El]].
  destruct IH as (q & E & Q1 & Q2); [intros; apply (H m0 c0); right; assumption|exact N2|]. rewrite E. simpl. eexists. split; [reflexivity|].
  assert (Q3 : ~ In m (map fst q)).
  { intros Hm. apply in_map_iff in Hm as ([k x] & <- & Hin). destruct (Q2 k x Hin) as (n & l0 & Hn & _). apply N1. apply in_map_iff. exists (k, n). auto. }
  destruct (Z.ltb_spec (available l t) c) as [Lt|Lt].
  - split; [simpl; constructor; assumption|]. intros k x [[= <- <-]|Hk]; [exists c, l; auto|]. destruct (Q2 k x Hk) as (n & l0 & Hn & R). exists n, l0. auto.
  - split; [exact Q1|]. intros k x Hk. destruct (Q2 k x Hk) as (n & l0 & Hn & R). exists n, l0. auto.
Qed.

  Lemma able_ok (holders : nat -> list depot) s p r : able holders s p r = Refused \/ exists ds, able holders s p r = Fine ds /\ ds <> [] /\
    forall d, In d ds -> In d (holders p) /\ forall m c, In (m, c) r -> exists l, su_mats s (dp_id d) m = Some l /\ c <= left_of l.
  Proof.
    unfold able. destruct (filter _ (holders p)) as [|d ds] eqn:E; [left; reflexivity|]. right. exists (d :: ds). split; [reflexivity|]. split; [discriminate|].
    intros x Hx. rewrite <- E in Hx. apply filter_In in Hx as [H1 H2]. split; [exact H1|]. intros m c Hm. rewrite forallb_forall in H2. specialize (H2 (m, c) Hm).
    unfold has_material in H2. simpl in H2. destruct (su_mats s (dp_id x) m) as [l|]; [|discriminate]. exists l. split; [reflexivity|lia].
  Qed.

Section Supply.
  Variable route : Z -> nat -> nat -> list nat.
  Variable overcome : nat -> Z.
  Variable holders : nat -> list depot.
  Variable storage : nat -> nat -> Z.
  Variable stock : nat -> nat -> option Z.
  Variables vehicles bandwidth : nat -> Z.
  Variable material : nat -> nat -> option Z.
  Variable rt : Z.
  Hypothesis Hland : landscape_ok route overcome holders stock vehicles bandwidth rt.

  Definition request_ok (r : request) : Prop := NoDup (map fst r) /\ r <> [] /\ forall m c, In (m, c) r -> 0 < c.
  (** What a depot that is tried at [t] offers. *)
  Definition offer_ok (rb : nat -> list booking) (M V : Z) (p : nat) (r : request) (t : Z) (d : depot) (f : found) : Prop :=
    exists n k ahead back ta tb, vehicles_needed d r = Some n /\ k = Z.min n (dp_vehicles d) /\ 0 < k /\ f_depot f = d /\ f_roads f = ahead ++ back /\
      drives overcome k t (route k (dp_id d) p) ahead ta /\ drives overcome k ta (route k p (dp_id d)) back tb /\ t < ta < tb /\ tb <= Z.max t M + rt /\
      t <= f_leaves f <= Z.max t V /\ (n <= dp_vehicles d -> f_leaves f = t) /\
      f_arrives f = f_leaves f + (ta - t) /\ f_returns f = f_leaves f + (tb - t) /\
      vehicles_for d r n /\
      forall q x, load (on_road q (f_roads f)) x + load (rb q) x <= bandwidth q.

  Lemma try_depot_ok s mb vb rb M V p r t d : supply_ok stock vehicles bandwidth material s mb vb rb M V ->
    0 <= M < TIME_INF -> 0 <= V < TIME_INF -> 0 <= t -> In d (holders p) -> request_ok r -> (forall m c, In (m, c) r -> stock (dp_id d) m <> None) ->
    try_depot route overcome s p r t d = Refused \/ exists f, try_depot route overcome s p r t d = Fine f /\ offer_ok rb M V p r t d f.
  Proof.
    intros S HM HV Ht Hd (N & Ne & C) St. destruct (lo_vehicles _ _ _ _ _ _ _ Hland p d Hd) as [Hv Hveh]. destruct (lo_carries _ _ _ _ _ _ _ Hland p d Hd) as [Q1 Q2].
    assert (Hov := lo_overcome _ _ _ _ _ _ _ Hland).
    destruct (vehicles_needed_ok d r N Q1) as (n & En & Hn & Cn); [|exact C|].
    { destruct r as [|[m c] r]; [congruence|]. assert (Hm := St m c (or_introl eq_refl)). destruct (stock (dp_id d) m) as [k|] eqn:Ek; [|congruence].
      destruct (Q2 m k Ek) as [q Hq]. exists m, c, q. split; [left; reflexivity|exact Hq]. }
    unfold try_depot. rewrite En. set (k := Z.min n (dp_vehicles d)). destruct (Z.leb_spec k 0) as [L|L]; [unfold k in L; lia|].
    unfold route_info, move. set (ra := route k (dp_id d) p). set (rk := route k p (dp_id d)).
    destruct (lo_route _ _ _ _ _ _ _ Hland k p d Hd) as [[Na Ba] [Nb Bb]].
    fold ra in Na, Ba. fold rk in Nb, Bb.
    assert (Troads : forall q, tracks (bandwidth q) (su_roads s q) (rb q)) by (intros q; apply (so_roads _ _ _ _ _ _ _ _ _ _ S q)).
    assert (Ttop : forall q, top (su_roads s q) M).
    { intros q. destruct (so_roads _ _ _ _ _ _ _ _ _ _ S q) as (T & B & _). apply (tracks_top _ _ _ _ T); [lia|exact B]. }
    destruct (drive_ok overcome bandwidth (su_roads s) rb k t ra M Hov Troads Ttop ltac:(lia) Ht Ba) as (ta & ahead & Ea & Da & Bda & Fa).
    destruct (drives_times _ _ _ _ _ _ Hov Da) as [Ta1 Ta2].
    destruct (drive_ok overcome bandwidth (su_roads s) rb k ta rk M Hov Troads Ttop ltac:(lia) ltac:(lia) Bb) as (tb & back & Eb & Db & Bdb & Fb).
    destruct (drives_times _ _ _ _ _ _ Hov Db) as [Tb1 Tb2].
    assert (Trip := lo_trip _ _ _ _ _ _ _ Hland k p d Hd). fold ra in Trip. fold rk in Trip.
    rewrite Ea. destruct ra as [|r0 ra'] eqn:Era; [left; reflexivity|]. rewrite <- Era in *. cbn [bind fst snd]. rewrite Eb.
    destruct rk as [|k0 rk'] eqn:Erk; [left; reflexivity|]. rewrite <- Erk in *. cbn [bind fst snd].
    assert (Hta : t < ta).
    { destruct ahead as [|[x b] ahead']; [rewrite Era in Da; destruct Da|]. destruct (Ta2 x b (or_introl eq_refl)). lia. }
    assert (Htb : ta < tb).
    { destruct back as [|[x b] back']; [rewrite Erk in Db; destruct Db|]. destruct (Tb2 x b (or_introl eq_refl)). lia. }
    assert (Hnon : forall rs, (forall r, 0 < overcome r) -> 0 <= trip overcome rs).
    { clear. intros rs H. induction rs as [|x rs IH]; simpl; [lia|]. specialize (H x). lia. }
    destruct (so_vehs _ _ _ _ _ _ _ _ _ _ S (dp_id d)) as [Tv Bv].
    assert (Vtop := tracks_top _ _ _ V Tv ltac:(lia) ltac:(intros b Hb; apply (Bv b Hb))).
    destruct (earliest_spec _ _ _ n t (tb - ta + (ta - t)) Tv) as (v & Ev & V1 & V2 & _ & V4); [intros e He; specialize (Vtop e He); lia|exact Ht|lia|].
    assert (Hnon1 := Hnon ra Hov). assert (Hnon2 := Hnon rk Hov). clear Hnon.
    rewrite Ev. right. eexists. split; [reflexivity|].
    assert (Hv2 : v <= Z.max t V).
    { destruct V2 as [->|V2]; [lia|]. apply in_map_iff in V2 as (e & <- & He). specialize (Vtop e He). lia. }
    exists n, k, ahead, back, ta, tb. cbn [f_depot f_roads f_leaves f_arrives f_returns]. split; [exact En|]. split; [reflexivity|]. split; [lia|].
    do 2 (split; [reflexivity|]). split; [exact Da|]. split; [exact Db|]. split; [lia|]. split; [lia|]. split; [lia|]. split.
    { intros Hle. apply V4. intros e He. assert (G := event_avail (vehicles (dp_id d)) _ e (tk_sorted _ _ _ Tv) He).
      rewrite (tk_avail _ _ _ Tv), load_zero_counts in G; [lia|intros b Hb; apply (Bv b Hb)|apply (tracks_nonneg _ _ _ _ Tv He)]. }
    split; [lia|]. split; [lia|]. split; [exact Cn|]. intros q x. rewrite on_road_app, load_app.
    destruct (so_roads _ _ _ _ _ _ _ _ _ _ S q) as (_ & _ & Hq).
    destruct (drives_load _ _ _ _ _ _ q x Hov Na Da) as [E1|(b1 & H1 & A1 & E1)], (drives_load _ _ _ _ _ _ q x Hov Nb Db) as [E2|(b2 & H2 & A2 & E2)]; rewrite E1, E2.
    - specialize (Hq x). lia.
    - specialize (Fb q b2 H2 x A2). lia.
    - specialize (Fa q b1 H1 x A1). lia.
    - exfalso. destruct (Ta2 q b1 H1) as (_ & G1 & G2 & _). destruct (Tb2 q b2 H2) as (_ & G3 & G4 & _). unfold active in A1, A2. lia.
  Qed.

  Lemma choose_ok s p r deadline t ds cur (Q : depot -> found -> Prop) :
    (forall d, In d ds -> try_depot route overcome s p r t d = Refused \/ exists f, try_depot route overcome s p r t d = Fine f /\ Q d f) ->
    choose route overcome s p r deadline t ds cur = Refused \/
    exists c, choose route overcome s p r deadline t ds cur = Fine c /\ (c = cur \/ exists d f, In d ds /\ c = Some f /\ Q d f) /\
              (ds <> [] -> arrival cur < deadline -> c <> cur \/ exists d f, In d ds /\ c = Some f /\ Q d f).
  Proof.
    revert cur. induction ds as [|d ds IH]; intros cur H; [right; exists cur; simpl; split; [reflexivity|split; [left; reflexivity|congruence]]|].
    cbn [choose]. destruct (H d (or_introl eq_refl)) as [E|(f & E & Hf)]; rewrite E; [left; reflexivity|]. cbn [bind].
    set (cur' := if (_ : bool) then Some f else cur). destruct (IH cur' ltac:(intros; apply H; right; assumption)) as [E'|(c & E' & Hc & _)]; [left; exact E'|].
    right. exists c. split; [exact E'|].
    assert (G : forall d0 f0, In d0 ds -> c = Some f0 -> Q d0 f0 -> exists d1 f1, In d1 (d :: ds) /\ c = Some f1 /\ Q d1 f1) by (intros d0 f0 ? ? ?; exists d0, f0; simpl; auto).
    split.
    - destruct Hc as [->|(d0 & f0 & A & B & C)]; [|right; eauto]. unfold cur'. destruct (_ || _); [right; exists d, f; simpl; auto|left; reflexivity].
    - intros _ Hlt. right. destruct Hc as [->|(d0 & f0 & A & B & C)]; [|eauto]. unfold cur'. destruct (Z.ltb_spec (arrival cur) deadline); [|lia]. rewrite orb_true_r.
      exists d, f. simpl. auto.
  Qed.
  Lemma search_ok s p r deadline ds (Q : Z -> depot -> found -> Prop) : ds <> [] -> 0 <= deadline ->
    (forall t d, 0 <= t <= deadline -> In d ds -> try_depot route overcome s p r t d = Refused \/ exists f, try_depot route overcome s p r t d = Fine f /\ Q t d f /\ t <= f_arrives f) ->
    forall fuel t cur, 0 <= t -> (t = 0 /\ arrival cur < deadline) \/ (t - 1 <= arrival cur /\ exists d f u, cur = Some f /\ In d ds /\ 0 <= u <= deadline /\ Q u d f) ->
    deadline - t + 2 <= Z.of_nat fuel ->
    search route overcome fuel s p r deadline t ds cur = Refused \/
    exists f d u, search route overcome fuel s p r deadline t ds cur = Fine (Some f) /\ In d ds /\ 0 <= u <= deadline /\ Q u d f /\ deadline <= f_arrives f.
  Proof.
    intros Hds Hdl H. induction fuel as [|fuel IH]; intros t cur Ht Hc Hf.
    - cbn [search]. destruct (Z.ltb_spec (arrival cur) deadline); [lia|]. destruct Hc as [[-> ?]|(H1 & d & f & u & -> & H2 & H3 & H4)]; [lia|]. right. exists f, d, u. auto.
    - cbn [search]. destruct (Z.ltb_spec (arrival cur) deadline) as [L|L].
      2:{ destruct Hc as [[-> ?]|(H1 & d & f & u & -> & H2 & H3 & H4)]; [lia|]. right. exists f, d, u. auto. }
      assert (Htd : 0 <= t <= deadline) by lia.
      destruct (choose_ok s p r deadline t ds cur (fun d f => Q t d f /\ t <= f_arrives f)) as [E|(c & E & _ & Hn)].
      { intros d Hd. apply (H t d Htd Hd). }
      + rewrite E. left. reflexivity.
      + rewrite E. cbn [bind]. apply IH; [lia| |lia]. right.
        assert (G : exists d f, In d ds /\ c = Some f /\ Q t d f /\ t <= f_arrives f).
        { clear IH Hn Hc. revert cur L E. induction ds as [|d ds' IHds]; [congruence|]. intros cur L E. cbn [choose] in E.
          destruct (H t d Htd (or_introl eq_refl)) as [Ed|(f & Ed & Hf1)]; rewrite Ed in E; [discriminate|]. cbn [bind] in E.
          destruct (Z.ltb_spec (arrival cur) deadline); [|lia]. rewrite orb_true_r in E.
          destruct (choose_ok s p r deadline t ds' (Some f) (fun d f => Q t d f /\ t <= f_arrives f)) as [E'|(c' & E' & Hc' & _)].
          { intros d0 Hd0. apply (H t d0 Htd). right. exact Hd0. }
          - rewrite E' in E. discriminate.
          - rewrite E' in E. injection E as ->. destruct Hc' as [->|(d0 & f0 & A & B & C)]; [exists d, f; simpl; auto|exists d0, f0; simpl; auto]. }
        destruct G as (d & f & G1 & -> & G2 & G3). split; [simpl; lia|]. exists d, f, t. auto.
  Qed.
  Lemma find_supply_ok s mb vb rb M V p deadline r : supply_ok stock vehicles bandwidth material s mb vb rb M V ->
    0 <= M < TIME_INF -> 0 <= V < TIME_INF -> 0 <= deadline -> request_ok r ->
    find_supply route overcome holders s p deadline r = Refused \/
    exists f d t, find_supply route overcome holders s p deadline r = Fine f /\ 0 <= t <= deadline /\ In d (holders p) /\
      (forall m c, In (m, c) r -> exists l, su_mats s (dp_id d) m = Some l /\ c <= left_of l) /\
      offer_ok rb M V p r t d f /\ deadline <= f_arrives f.
  Proof.
    intros S HM HV Hd Hr. unfold find_supply. destruct (able_ok holders s p r) as [E|(ds & E & Hne & Hds)]; rewrite E; [left; reflexivity|]. cbn [bind].
    assert (Hst : forall d m c, In d ds -> In (m, c) r -> stock (dp_id d) m <> None).
    { intros d m c Hin Hm En. destruct (Hds d Hin) as [_ H]. destruct (H m c Hm) as (l & El & _). assert (G := so_mats _ _ _ _ _ _ _ _ _ _ S (dp_id d) m).
      rewrite En, El in G. exact G. }
    destruct (search_ok s p r deadline ds (fun t d f => offer_ok rb M V p r t d f) Hne Hd) with (fuel := search_rounds deadline) (t := 0) (cur := @None found)
      as [E2|(f & d & u & E2 & H1 & H2 & H3 & H4)].
    - intros t d Ht Hin. destruct (Hds d Hin) as [Hh _].
      destruct (try_depot_ok s mb vb rb M V p r t d S HM HV ltac:(lia) Hh Hr ltac:(intros; apply (Hst d m c); assumption)) as [E1|(f & E1 & O)]; [left; exact E1|].
      right. exists f. split; [exact E1|]. split; [exact O|]. destruct O as (n & k & ahead & back & ta & tb & O). decompose [and] O. lia.
    - lia.
    - left. simpl. lia.
    - unfold search_rounds. lia.
    - rewrite E2. left. reflexivity.
    - rewrite E2. cbn [bind]. right. exists f, d, u. split; [reflexivity|]. destruct (Hds d H1) as [Hh Hm]. auto.
  Qed.

  Variable horizon : Z.
  Definition opt (o : option delivery) : list delivery := match o with Some d => [d] | None => [] end.
  Lemma deliver_ok s mb vb rb M V c : supply_ok stock vehicles bandwidth material s mb vb rb M V ->
    0 <= M < TIME_INF -> 0 <= V < TIME_INF -> horizon <= M -> horizon <= V -> 0 <= rt -> call_ok storage material horizon c ->
    deliver route overcome holders storage s (c_platform c) (c_deadline c) (c_needs c) = Refused \/
    exists o t s' mb' vb' rb', deliver route overcome holders storage s (c_platform c) (c_deadline c) (c_needs c) = Fine (o, t, s') /\
      supply_ok stock vehicles bandwidth material s' mb' vb' rb' (M + rt) (V + M + rt) /\
      (forall h m, total_count (mb' h m) = total_count (mb h m) + taken h m (opt o)) /\
      (forall q x, load (rb' q) x = load (rb q) x + traffic q (opt o) x) /\ answered route overcome holders (c, o, t).
  Proof.
    intros S HM HV HhM HhV Hrt (Hdl & N & C). destruct c as [p deadline needs]. cbn [c_platform c_deadline c_needs] in *.
    assert (Same : forall s', su_mats s' = su_mats s -> su_vehs s' = su_vehs s -> su_roads s' = su_roads s -> (forall p m, su_plat s p m <> None -> su_plat s' p m <> None) ->
      supply_ok stock vehicles bandwidth material s' mb vb rb (M + rt) (V + M + rt)).
    { intros s' E1 E2 E3 E4. destruct S as [S1 S2 S3 S4]. constructor; rewrite ?E1, ?E2, ?E3.
      - intros r. destruct (S1 r) as (A1 & A2 & A3). split; [exact A1|]. split; [intros b Hb; specialize (A2 b Hb); lia|exact A3].
      - intros h. destruct (S2 h) as (A1 & A2). split; [exact A1|]. intros b Hb. specialize (A2 b Hb). lia.
      - exact S3.
      - intros q m Hq. apply E4, S4, Hq. }
    assert (Quiet : forall s', su_mats s' = su_mats s -> su_vehs s' = su_vehs s -> su_roads s' = su_roads s -> (forall p m, su_plat s p m <> None -> su_plat s' p m <> None) ->
      exists o t s2 mb' vb' rb', Fine (@None delivery, deadline, s') = Fine (o, t, s2) /\ supply_ok stock vehicles bandwidth material s2 mb' vb' rb' (M + rt) (V + M + rt) /\
      (forall h m, total_count (mb' h m) = total_count (mb h m) + taken h m (opt o)) /\
      (forall q x, load (rb' q) x = load (rb q) x + traffic q (opt o) x) /\ answered route overcome holders (Call p deadline needs, o, t)).
    { intros s' E1 E2 E3 E4. exists None, deadline, s', mb, vb, rb. split; [reflexivity|]. split; [apply Same; assumption|]. simpl. split; [intros; lia|]. split; [intros; unfold traffic; simpl; lia|reflexivity]. }
    assert (Hplat : forall m c, In (m, c) needs -> su_plat s p m <> None).
    { intros m n Hm. apply (so_plat _ _ _ _ _ _ _ _ _ _ S). apply (C m n Hm). }
    unfold deliver. destruct needs as [|nd needs'] eqn:En; [right; apply Quiet; auto|]. rewrite <- En in *. clear nd needs' En.
    destruct (to_deliver_ok storage (su_plat s p) p needs deadline Hplat N) as (r & Er & Nr & Hr). rewrite Er. cbn [bind].
    destruct r as [|r0 r'] eqn:Eqr.
    - destruct (platform_ready_ok (su_plat s p) needs deadline Hplat) as [b Eb]. rewrite Eb. cbn [bind]. destruct b; [|right; apply Quiet; auto].
      destruct (update_platform_ok (su_plat s p) (map (fun x => (fst x, snd x, deadline)) needs)) as (plat & Ep & Hp).
      { intros m x t Hin. apply in_map_iff in Hin as ([k y] & [= <- <- <-] & Hin). apply (Hplat k y Hin). }
      rewrite Ep. cbn [bind]. right. apply Quiet; try reflexivity. intros q m Hq. cbn [su_plat]. unfold upd. destruct (Nat.eqb_spec q p) as [->|]; auto.
    - rewrite <- Eqr in *. cbn [bind].
      assert (Hreq : request_ok r).
      { split; [exact Nr|]. split; [rewrite Eqr; discriminate|]. intros m x Hin. destruct (Hr m x Hin) as (n & l & H1 & _ & H2 & ->). destruct (C m n H1). lia. }
      unfold supply_resources. destruct (find_supply_ok s mb vb rb M V p deadline r S HM HV ltac:(lia) Hreq) as [Ef|(f & d & t & Ef & Ht & Hd & Hm & O & Harr)]; rewrite Ef; [left; reflexivity|].
      cbn [bind]. destruct O as (n & k & ahead & back & ta & tb & En & Ek & Hk & Efd & Efr & Da & Db & Htt & Htb & Hlv & Hfit & Ea & Ert & Hvf & Hload).
      assert (Hov := lo_overcome _ _ _ _ _ _ _ Hland).
      destruct (drives_times _ _ _ _ _ _ Hov Da) as [_ Ta2]. destruct (drives_times _ _ _ _ _ _ Hov Db) as [_ Tb2].
      destruct (update_platform_ok (su_plat s p) (map (fun x => (fst x, (match amount (fst x) needs with Some c => c | None => 0 end) - snd x, f_arrives f)) r)) as (plat & Ep & Hp).
      { intros m x u Hin. apply in_map_iff in Hin as ([a y] & [= <- _ _] & Hin). destruct (Hr a y Hin) as (n0 & l & H1 & _). apply (Hplat a n0 H1). }
      rewrite Ep. cbn [bind]. rewrite Efd.
      destruct (book_mats_ok (stock (dp_id d)) (f_leaves f) r) with (mats := su_mats s (dp_id d)) (mb := mb (dp_id d)) as (mats' & mb' & Em & Sm & Tm).
      { lia. } { exact Nr. } { intros m x Hin. destruct Hreq as (_ & _ & Hc). specialize (Hc m x Hin). lia. } { intros m. apply (so_mats _ _ _ _ _ _ _ _ _ _ S). } { exact Hm. }
      rewrite Em. cbn [bind]. destruct (so_vehs _ _ _ _ _ _ _ _ _ _ S (dp_id d)) as [Tv Bv].
      destruct (book_ok _ _ _ 0 (f_leaves f) (f_returns f) Tv) as (vehs & Ev & Tv'); [lia|lia| |].
      { intros x _. rewrite load_zero_counts by (intros b Hb; apply (Bv b Hb)). assert (G := lo_depots _ _ _ _ _ _ _ Hland (dp_id d)). lia. }
      rewrite Ev. assert (Hbs : forall q b, In (q, b) (f_roads f) -> 0 <= b_start b < b_end b /\ 0 <= b_count b /\ b_end b <= M + rt).
      { intros q b Hin. rewrite Efr in Hin. apply in_app_or in Hin as [Hin|Hin]; [destruct (Ta2 q b Hin) as (_ & ? & ? & ?)|destruct (Tb2 q b Hin) as (_ & ? & ? & ?)]; lia. }
      destruct (book_roads_ok bandwidth (su_roads s) rb (f_roads f)) as (roads & Erd & Trd).
      { intros q. apply (so_roads _ _ _ _ _ _ _ _ _ _ S q). } { intros q b Hin. destruct (Hbs q b Hin) as (? & ? & ?). split; lia. } { exact Hload. }
      rewrite Erd. cbn [bind fst snd dl_arrives]. right.
      exists (Some (Dl (dp_id d) (f_leaves f) (f_arrives f) r (f_roads f))), (f_arrives f). eexists.
      exists (upd mb (dp_id d) mb'), (upd vb (dp_id d) (Bk (f_leaves f) (f_returns f) 0 :: vb (dp_id d))), (fun q => rev (on_road q (f_roads f)) ++ rb q).
      split; [reflexivity|]. split; [|split; [|split]].
      + destruct S as [S1 S2 S3 S4]. constructor; cbn [su_roads su_vehs su_mats su_plat].
        * intros q. split; [apply Trd|]. split.
          -- intros b Hb. apply in_app_or in Hb as [Hb|Hb]; [apply in_rev, on_road_in in Hb; apply (Hbs q b Hb)|]. destruct (S1 q) as (_ & A2 & _). specialize (A2 b Hb). lia.
          -- intros x. rewrite load_app, load_rev. apply Hload.
        * intros h. unfold upd. destruct (Nat.eqb_spec h (dp_id d)) as [->|Ne].
          -- split; [exact Tv'|]. intros b [<-|Hb]; [cbn [b_end b_count]; lia|]. specialize (Bv b Hb). lia.
          -- destruct (S2 h) as [A1 A2]. split; [exact A1|]. intros b Hb. specialize (A2 b Hb). lia.
        * intros h m. unfold upd. destruct (Nat.eqb_spec h (dp_id d)) as [->|Ne]; [apply Sm|apply S3].
        * intros q m Hq. unfold upd. destruct (Nat.eqb_spec q p) as [->|Ne]; [apply Hp, S4, Hq|apply S4, Hq].
      + intros h m. unfold upd. cbn [opt taken dl_depot dl_mats]. rewrite (Nat.eqb_sym h). destruct (Nat.eqb_spec (dp_id d) h) as [<-|Ne]; [rewrite Tm|]; lia.
      + intros q x. rewrite load_app, load_rev. unfold traffic. cbn [opt map concat dl_roads]. rewrite app_nil_r. lia.
      + cbn [answered c_deadline c_platform c_needs dl_arrives dl_leaves dl_mats]. split; [reflexivity|]. split; [exact Harr|]. split; [lia|]. split; [|split; [exact Nr|split; [rewrite Eqr; discriminate|]]].
        * exists d, n. cbn [dl_depot dl_mats dl_leaves dl_arrives dl_roads]. split; [exact Hd|]. split; [reflexivity|]. split; [exact Hvf|].
          intros Hle. assert (k = n) by lia. subst k. specialize (Hfit Hle). exists ahead, back, tb. split; [exact Efr|].
          replace (f_leaves f) with t by lia. replace (f_arrives f) with ta by lia. rewrite H in *. split; [exact Da|exact Db].
        * intros m a Hin. destruct Hreq as (_ & _ & Hc). split; [apply (Hc m a Hin)|]. destruct (Hr m a Hin) as (n0 & l & H1 & _). eauto.
  Qed.
  Lemma deliveries_cons c o t l : deliveries ((c, o, t) :: l) = opt o ++ deliveries l.
  Proof. destruct o; reflexivity. Qed.
  Lemma taken_app h m a b : taken h m (a ++ b) = taken h m a + taken h m b.
  Proof. induction a as [|x a IH]; simpl; lia. Qed.
  Lemma traffic_app q a b x : traffic q (a ++ b) x = traffic q a x + traffic q b x.
  Proof. unfold traffic. rewrite map_app, concat_app, on_road_app, load_app. reflexivity. Qed.

  Lemma history_ok calls : 0 <= rt -> 0 <= horizon -> (forall c, In c calls -> call_ok storage material horizon c) ->
    forall s mb vb rb M V, supply_ok stock vehicles bandwidth material s mb vb rb M V -> horizon <= M -> horizon <= V ->
    V + Z.of_nat (length calls) * (M + Z.of_nat (length calls) * rt) < TIME_INF ->
    exists out s' mb' vb' rb' M' V', history_of route overcome holders storage s calls = Fine (out, s') /\
      supply_ok stock vehicles bandwidth material s' mb' vb' rb' M' V' /\
      (forall h m, total_count (mb' h m) = total_count (mb h m) + taken h m (deliveries out)) /\
      (forall q x, load (rb' q) x = load (rb q) x + traffic q (deliveries out) x) /\
      forall e, In e out -> In (fst (fst e)) calls /\ answered route overcome holders e.
  Proof.
    intros Hrt Hh. induction calls as [|c calls IH]; intros Hc s mb vb rb M V S HM HV Hinf.
    - exists [], s, mb, vb, rb, M, V. simpl. split; [reflexivity|]. split; [exact S|]. split; [intros; lia|]. split; [intros; unfold traffic; simpl; lia|intros ? []].
    - cbn [history_of]. cbn [length] in Hinf. rewrite Nat2Z.inj_succ in Hinf. set (k := Z.of_nat (length calls)) in *. assert (Hk : 0 <= k) by lia.
      assert (B1 : 0 <= k * M) by nia. assert (B2 : 0 <= k * rt) by nia. assert (B3 : 0 <= k * (k * rt)) by nia.
      assert (Hinf' : V + M + rt + k * M + k * (k * rt) + 2 * (k * rt) < TIME_INF) by (replace (Z.succ k) with (k + 1) in Hinf by lia; ring_simplify in Hinf; nia).
      destruct (deliver_ok s mb vb rb M V c S ltac:(lia) ltac:(lia) HM HV Hrt (Hc c (or_introl eq_refl))) as [E|(o & t & s1 & mb1 & vb1 & rb1 & E & S1 & E1 & E2 & A)]; rewrite E.
      + destruct (IH ltac:(intros; apply Hc; right; assumption) s mb vb rb M V S HM HV) as (out & s' & mb' & vb' & rb' & M' & V' & R & R1 & R2 & R3 & R4); [rewrite Z.mul_add_distr_l; lia|].
        exists out, s', mb', vb', rb', M', V'. split; [exact R|]. split; [exact R1|]. split; [exact R2|]. split; [exact R3|]. intros e He. destruct (R4 e He). split; [right; assumption|assumption].
      + destruct (IH ltac:(intros; apply Hc; right; assumption) s1 mb1 vb1 rb1 (M + rt) (V + M + rt) S1 ltac:(lia) ltac:(lia)) as (out & s' & mb' & vb' & rb' & M' & V' & R & R1 & R2 & R3 & R4).
        { rewrite !Z.mul_add_distr_l. lia. }
        rewrite R. cbn [bind fst snd]. exists ((c, o, t) :: out), s', mb', vb', rb', M', V'. split; [reflexivity|]. split; [exact R1|]. rewrite deliveries_cons.
        split; [intros h m; rewrite R2, E1, taken_app; lia|]. split; [intros q x; rewrite R3, E2, traffic_app; lia|].
        intros e [<-|He]; [split; [left; reflexivity|exact A]|]. destruct (R4 e He). split; [right; assumption|assumption].
  Qed.
  Lemma start_ok : supply_ok stock vehicles bandwidth material (start_supply stock vehicles bandwidth material) (fun _ _ => []) (fun _ => []) (fun _ => []) horizon horizon.
  Proof.
    constructor; cbn [start_supply su_roads su_vehs su_mats su_plat].
    - intros r. split; [apply unused_tracks|]. split; [intros ? []|intros x; simpl; apply (lo_bandwidth _ _ _ _ _ _ _ Hland)].
    - intros h. split; [apply unused_tracks|intros ? []].
    - intros h m. destruct (stock h m) as [n|] eqn:E; simpl; [|reflexivity]. split; [apply unused_tracks|]. split; [intros ? []|apply (lo_stock _ _ _ _ _ _ _ Hland h m n E)].
    - intros p m H. destruct (material p m); [discriminate|congruence].
  Qed.
End Supply.
