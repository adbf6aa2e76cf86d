(** Lemmas about the supply timelines. *)
From Coq Require Import ZArith List Bool Lia Arith Sorted Permutation ZifyBool ZifyNat.
From Verif Require Import TimeModel MomentumSpec SupplyModel SupplySpec.
Import ListNotations.
Local Open Scope Z_scope.

(** ** Events of one resource *)
Definition later (x y : stock_event) : Prop := ev_time x < ev_time y \/ (ev_time x = ev_time y /\ ev_count y <= ev_count x).
(** The number that is available at a moment, by the last event up to it. *)
Definition avail (d : Z) (l : events) (t : Z) : Z := fold_left (fun a e => if ev_time e <=? t then ev_count e else a) l d.
Record tracks (cap : Z) (l : events) (bs : list booking) : Prop := {
  tk_head : exists r, l = Ev 0 cap :: r;
  tk_sorted : StronglySorted later l;
  tk_avail : forall t, 0 <= t -> avail cap l t = cap - load bs t;
  tk_events : forall b, In b bs -> In (b_start b) (map ev_time l) /\ In (b_end b) (map ev_time l);
  tk_bookings : forall b, In b bs -> 0 <= b_start b < b_end b /\ 0 <= b_count b;
  tk_times : forall e, In e l -> ev_time e = 0 \/ exists b, In b bs /\ (ev_time e = b_start b \/ ev_time e = b_end b) }.

Lemma avail_app d a b t : avail d (a ++ b) t = avail (avail d a t) b t.
Proof. unfold avail. apply fold_left_app. Qed.
Lemma avail_none d l t : (forall e, In e l -> t < ev_time e) -> avail d l t = d.
Proof.
  unfold avail. revert d. induction l as [|e l IH]; intros d H; [reflexivity|]. simpl. destruct (Z.leb_spec (ev_time e) t) as [L|L].
  - specialize (H e (or_introl eq_refl)). lia.
  - apply IH. intros; apply H; right; assumption.
Qed.
Lemma avail_all d l t : (forall e, In e l -> ev_time e <= t) -> avail d l t = match last_event l with Some e => ev_count e | None => d end.
Proof.
  intros H. destruct l as [|x l] using rev_ind; [reflexivity|]. rewrite avail_app. unfold last_event. rewrite rev_app_distr. simpl. unfold avail. simpl.
  destruct (Z.leb_spec (ev_time x) t) as [L|L]; [reflexivity|]. specialize (H x ltac:(apply in_or_app; simpl; auto)). lia.
Qed.
Lemma avail_shift d l t c : avail (d - c) (map (fun x => Ev (ev_time x) (ev_count x - c)) l) t = avail d l t - c.
Proof.
  unfold avail. revert d. induction l as [|e l IH]; intros d; [reflexivity|]. simpl. destruct (ev_time e <=? t); apply IH.
Qed.
Lemma later_trans x y z : later x y -> later y z -> later x z.
Proof. unfold later. lia. Qed.

Lemma span_spec f l : l = fst (span f l) ++ snd (span f l) /\ (forall e, In e (fst (span f l)) -> f e = true) /\
  match snd (span f l) with [] => True | e :: _ => f e = false end.
Proof.
  induction l as [|e l (E & A & B)]; [split; [reflexivity|split; [intros ? []|exact I]]|]. simpl. destruct (f e) eqn:Ef.
  - destruct (span f l) as [a b]. simpl in *. split; [f_equal; exact E|]. split; [|exact B]. intros x [<-|Hx]; auto.
  - split; [reflexivity|]. split; [intros ? []|exact Ef].
Qed.
Lemma sorted_app {A} (R : A -> A -> Prop) a b : StronglySorted R (a ++ b) <-> StronglySorted R a /\ StronglySorted R b /\ forall x y, In x a -> In y b -> R x y.
Proof.
  induction a as [|x a IH]; simpl.
  - split; [intros H; split; [constructor|split; [exact H|intros ? ? []]]|tauto].
  - split.
    + intros H. apply StronglySorted_inv in H as [H F]. apply IH in H as (H1 & H2 & H3). rewrite Forall_forall in F. split.
      * constructor; [exact H1|]. apply Forall_forall. intros y Hy. apply F, in_or_app. auto.
      * split; [exact H2|]. intros y z [<-|Hy] Hz; [apply F, in_or_app; auto|auto].
    + intros (H1 & H2 & H3). apply StronglySorted_inv in H1 as [H1 F]. constructor; [apply IH; split; [exact H1|split; [exact H2|auto]]|].
      apply Forall_forall. intros y Hy. apply in_app_or in Hy as [Hy|Hy]; [rewrite Forall_forall in F; auto|auto].
Qed.
Lemma upto_spec l t : StronglySorted later l -> l = fst (upto l t) ++ snd (upto l t) /\
  (forall e, In e (fst (upto l t)) -> ev_time e <= t) /\ (forall e, In e (snd (upto l t)) -> t < ev_time e).
Proof.
  intros H. unfold upto. destruct (span_spec (fun e => ev_time e <=? t) l) as (E & A & B). split; [exact E|]. split.
  - intros e He. apply A in He. lia.
  - rewrite E in H. apply sorted_app in H as (_ & H & _). destruct (snd (span _ l)) as [|e r]; [intros ? []|]. apply StronglySorted_inv in H as [_ F].
    intros x [<-|Hx]; [lia|]. rewrite Forall_forall in F. specialize (F x Hx). unfold later in F. lia.
Qed.
Lemma before_spec l t : StronglySorted later l -> l = fst (before l t) ++ snd (before l t) /\
  (forall e, In e (fst (before l t)) -> ev_time e < t) /\ (forall e, In e (snd (before l t)) -> t <= ev_time e).
Proof.
  intros H. unfold before. destruct (span_spec (fun e => ev_time e <? t) l) as (E & A & B). split; [exact E|]. split.
  - intros e He. apply A in He. lia.
  - rewrite E in H. apply sorted_app in H as (_ & H & _). destruct (snd (span _ l)) as [|e r]; [intros ? []|]. apply StronglySorted_inv in H as [_ F].
    intros x [<-|Hx]; [lia|]. rewrite Forall_forall in F. specialize (F x Hx). unfold later in F. lia.
Qed.
Lemma span_unique f l a b : l = a ++ b -> (forall e, In e a -> f e = true) -> match b with [] => True | e :: _ => f e = false end -> span f l = (a, b).
Proof.
  intros ->. induction a as [|e a IH]; intros A B; simpl; [destruct b as [|e b]; [reflexivity|simpl; rewrite B; reflexivity]|].
  rewrite (A e (or_introl eq_refl)). rewrite IH; [reflexivity| |exact B]. intros; apply A; right; assumption.
Qed.
Lemma upto_unique l a b t : l = a ++ b -> (forall e, In e a -> ev_time e <= t) -> (forall e, In e b -> t < ev_time e) -> upto l t = (a, b).
Proof.
  intros E A B. apply span_unique; [exact E| |].
  - intros e He. apply A in He. lia.
  - destruct b as [|e b]; [exact I|]. specialize (B e (or_introl eq_refl)). lia.
Qed.
Lemma last_event_in l e : last_event l = Some e -> In e l.
Proof. unfold last_event. intros H. apply in_rev. destruct (rev l); [discriminate|]. injection H as ->. left. reflexivity. Qed.
Lemma last_event_some l : l <> [] -> exists e, last_event l = Some e.
Proof. intros H. unfold last_event. destruct (rev l) eqn:E; [|eauto]. exfalso. apply H. rewrite <- (rev_involutive l), E. reflexivity. Qed.
Lemma last_event_app a b : last_event (a ++ b) = match last_event b with Some e => Some e | None => last_event a end.
Proof. unfold last_event. rewrite rev_app_distr. destruct (rev b); reflexivity. Qed.
(** An event shows at least what is available at its time. *)
Lemma event_avail d l e : StronglySorted later l -> In e l -> avail d l (ev_time e) <= ev_count e.
Proof.
  intros H He. apply in_split in He as (a & b & ->). rewrite avail_app. cbn [avail fold_left]. rewrite Z.leb_refl.
  apply sorted_app in H as (_ & H & _). apply StronglySorted_inv in H as [H F]. fold (avail (ev_count e) b (ev_time e)).
  rewrite Forall_forall in F. clear H. assert (G : forall c, c <= ev_count e -> avail c b (ev_time e) <= ev_count e); [|apply G; lia].
  unfold avail. induction b as [|x b IH]; intros c Hc; simpl; [exact Hc|]. apply IH; [intros; apply F; right; assumption|].
  destruct (Z.leb_spec (ev_time x) (ev_time e)) as [L|L]; [|exact Hc]. specialize (F x (or_introl eq_refl)). unfold later in F. lia.
Qed.
Lemma load_app a b t : load (a ++ b) t = load a t + load b t.
Proof. induction a as [|x a IH]; simpl; lia. Qed.

Lemma unused_tracks cap : tracks cap (unused cap) [].
Proof.
  unfold unused. constructor.
  - eauto.
  - repeat constructor.
  - intros t Ht. unfold avail. simpl. destruct (Z.leb_spec 0 t); lia.
  - intros b [].
  - intros b [].
  - intros e [<-|[]]. left. reflexivity.
Qed.
Lemma tracks_nonneg cap l bs e : tracks cap l bs -> In e l -> 0 <= ev_time e.
Proof. intros T He. destruct (tk_times _ _ _ T e He) as [->|(b & Hb & E)]; [lia|]. destruct (tk_bookings _ _ _ T b Hb). lia. Qed.

Lemma book_ok cap l bs c s e : tracks cap l bs -> 0 <= s < e -> 0 <= c -> (forall t, s <= t < e -> load bs t + c <= cap) ->
  exists l', book l c s e = Some l' /\ tracks cap l' (Bk s e c :: bs).
Proof.
  intros T Hse Hc Hfit. assert (Hs := tk_sorted _ _ _ T). unfold book.
  destruct (upto_spec l s Hs) as (E1 & A1 & A2). destruct (upto l s) as [pre rest]. cbn [fst snd] in *.
  assert (Hs' := Hs). rewrite E1 in Hs'. apply sorted_app in Hs' as (Hpre & Hrest & Hpr).
  destruct (before_spec rest e Hrest) as (E2 & B1 & B2). destruct (before rest e) as [mid post]. cbn [fst snd] in *.
  assert (Hs2 := Hrest). rewrite E2 in Hs2. apply sorted_app in Hs2 as (Hmid & Hpost & Hmp).
  assert (Hin0 : In (Ev 0 cap) pre).
  { destruct (tk_head _ _ _ T) as [r Hr]. rewrite E1 in Hr. destruct pre as [|p pre']; [|injection Hr as -> _; left; reflexivity]. exfalso. simpl in Hr.
    specialize (A2 (Ev 0 cap)). rewrite Hr in A2. specialize (A2 (or_introl eq_refl)). simpl in A2. lia. }
  destruct (last_event_some pre) as [a Ea]; [intros ->; destruct Hin0|]. rewrite Ea.
  assert (Hav_s : avail cap l s = ev_count a).
  { rewrite E1, avail_app, (avail_none _ rest s A2), (avail_all _ pre s A1), Ea. reflexivity. }
  assert (Hca : c <= ev_count a) by (rewrite <- Hav_s, (tk_avail _ _ _ T s) by lia; specialize (Hfit s); lia).
  assert (Hmidc : forall x, In x mid -> c <= ev_count x /\ s < ev_time x < e).
  { intros x Hx. assert (Hx1 : s < ev_time x) by (apply A2; rewrite E2; apply in_or_app; auto). assert (Hx2 := B1 x Hx). split; [|lia].
    assert (Hxl : In x l) by (rewrite E1, E2; apply in_or_app; right; apply in_or_app; auto).
    assert (G := event_avail cap l x Hs Hxl). rewrite (tk_avail _ _ _ T) in G by lia. specialize (Hfit (ev_time x)). lia. }
  assert (Ecmp : (ev_count a <? c) || existsb (fun x => ev_count x <? c) mid = false).
  { apply orb_false_iff. split; [lia|]. apply not_true_iff_false. intros H. apply existsb_exists in H as (x & Hx & H). specialize (Hmidc x Hx). lia. }
  rewrite Ecmp. set (mid' := map (fun x => Ev (ev_time x) (ev_count x - c)) mid). set (st := Ev s (ev_count a - c)).
  set (l1 := pre ++ st :: mid' ++ post).
  assert (Hmid'in : forall x, In x mid' -> exists y, In y mid /\ x = Ev (ev_time y) (ev_count y - c)).
  { intros x Hx. apply in_map_iff in Hx as (y & <- & Hy). eauto. }
  destruct (upto_spec post e Hpost) as (E3 & C1 & C2). destruct (upto post e) as [p1 p2]. cbn [fst snd] in *.
  assert (Hp1 : forall x, In x p1 -> ev_time x = e).
  { intros x Hx. specialize (C1 x Hx). specialize (B2 x ltac:(rewrite E3; apply in_or_app; auto)). lia. }
  assert (Up : upto l1 e = (pre ++ st :: mid' ++ p1, p2)).
  { apply upto_unique; [unfold l1; rewrite E3, <- app_assoc; simpl; rewrite <- app_assoc; reflexivity| |exact C2].
    intros x Hx. apply in_app_or in Hx as [Hx|[<-|Hx]]; [specialize (A1 x Hx); lia|simpl; lia|]. apply in_app_or in Hx as [Hx|Hx].
    - apply Hmid'in in Hx as (y & Hy & ->). specialize (Hmidc y Hy). simpl. lia.
    - rewrite (Hp1 x Hx). lia. }
  unfold add_event. rewrite Up. cbn [fst snd].
  destruct (last_event_some (pre ++ st :: mid' ++ p1)) as [b Eb]; [destruct pre; discriminate|]. rewrite Eb. eexists. split; [reflexivity|].
  set (en := Ev e (if ev_time b =? e then ev_count b else ev_count b + c)).
  (* the value after the middle part in the original list *)
  set (m := avail (ev_count a) mid e).
  assert (Em : avail (ev_count a - c) mid' e = m - c) by (unfold m, mid'; apply avail_shift).
  assert (Hb : ev_count en = match last_event p1 with Some x => ev_count x | None => m end /\ ev_time en = e).
  { split; [|reflexivity]. unfold en. cbn [ev_count]. rewrite app_comm_cons, app_assoc, last_event_app in Eb. destruct (last_event p1) as [x|] eqn:El.
    - injection Eb as <-. rewrite (Hp1 x (last_event_in _ _ El)), Z.eqb_refl. reflexivity.
    - assert (p1 = []) by (destruct p1 as [|y p1 _] using rev_ind; [reflexivity|rewrite last_event_app in El; discriminate]). subst p1.
      assert (G : avail 0 (pre ++ st :: mid') e = ev_count b).
      { rewrite avail_all, Eb; [reflexivity|]. intros x Hx. apply in_app_or in Hx as [Hx|[<-|Hx]]; [specialize (A1 x Hx); lia|simpl; lia|].
        apply Hmid'in in Hx as (y & Hy & ->). specialize (Hmidc y Hy). simpl. lia. }
      rewrite avail_app in G. cbn [avail fold_left] in G. unfold st in G at 1 2. cbn [ev_time ev_count] in G. destruct (Z.leb_spec s e); [|lia].
      fold (avail (ev_count a - c) mid' e) in G. rewrite Em in G.
      destruct (Z.eqb_spec (ev_time b) e) as [Et|Et]; [|lia]. exfalso. apply last_event_in in Eb. apply in_app_or in Eb as [Hx|[<-|Hx]].
      + specialize (A1 b Hx). lia.
      + simpl in Et. lia.
      + apply Hmid'in in Hx as (y & Hy & ->). specialize (Hmidc y Hy). simpl in Et. lia. }
  destruct Hb as [Hb Hbt].
  assert (Hnew : forall x, In x ((pre ++ st :: mid' ++ p1) ++ en :: p2) -> ev_time x = s \/ ev_time x = e \/ exists y, In y l /\ ev_time x = ev_time y).
  { intros x Hx. apply in_app_or in Hx as [Hx|[<-|Hx]].
    - apply in_app_or in Hx as [Hx|[<-|Hx]]; [right; right; exists x; split; [rewrite E1; apply in_or_app; auto|reflexivity]|left; reflexivity|].
      apply in_app_or in Hx as [Hx|Hx]; [|right; left; auto]. apply Hmid'in in Hx as (y & Hy & ->). right. right. exists y. split; [|reflexivity].
      rewrite E1, E2. apply in_or_app; right; apply in_or_app; auto.
    - right. left. exact Hbt.
    - right. right. exists x. split; [|reflexivity]. rewrite E1, E2, E3. apply in_or_app; right; apply in_or_app; right; apply in_or_app; auto. }
  assert (Hold : forall y, In y l -> In (ev_time y) (map ev_time ((pre ++ st :: mid' ++ p1) ++ en :: p2))).
  { intros y Hy. rewrite E1, E2, E3 in Hy. rewrite !map_app. cbn [map]. rewrite !map_app. apply in_app_or in Hy as [Hy|Hy].
    - apply in_or_app; left; apply in_or_app; left; apply in_map; exact Hy.
    - apply in_app_or in Hy as [Hy|Hy].
      + apply in_or_app; left; apply in_or_app; right; right; apply in_or_app; left. unfold mid'. rewrite map_map. simpl. apply in_map. exact Hy.
      + apply in_app_or in Hy as [Hy|Hy].
        * apply in_or_app; left; apply in_or_app; right; right; apply in_or_app; right; apply in_map; exact Hy.
        * apply in_or_app; right; right; apply in_map; exact Hy. }
  constructor.
  - destruct (tk_head _ _ _ T) as [r Hr]. rewrite E1 in Hr. destruct pre as [|p pre']; [destruct Hin0|]. injection Hr as -> _. rewrite <- app_assoc. simpl. eauto.
  - (* sorted *)
    assert (Rst : forall x, In x pre -> later x st).
    { intros x Hx. assert (Hle := A1 x Hx). unfold later, st. simpl. destruct (Z.lt_ge_cases (ev_time x) s); [left; lia|]. right. split; [lia|].
      assert (Hxl : In x l) by (rewrite E1; apply in_or_app; auto). assert (G := event_avail cap l x Hs Hxl). replace (ev_time x) with s in G by lia. lia. }
    assert (Smid : StronglySorted later mid').
    { unfold mid'. clear - Hmid. induction Hmid as [|x r Hr IH F]; simpl; constructor; [exact IH|]. apply Forall_forall. intros y Hy. apply in_map_iff in Hy as (z & <- & Hz).
      rewrite Forall_forall in F. specialize (F z Hz). unfold later in *. simpl. lia. }
    apply sorted_app. split; [|split].
    + apply sorted_app. split; [exact Hpre|]. split.
      * constructor.
        -- apply sorted_app. split; [exact Smid|]. split; [rewrite E3 in Hpost; apply sorted_app in Hpost; apply Hpost|].
           intros x y Hx Hy. apply Hmid'in in Hx as (z & Hz & ->). specialize (Hmidc z Hz). left. simpl. rewrite (Hp1 y Hy). lia.
        -- apply Forall_forall. intros x Hx. left. unfold st. simpl. apply in_app_or in Hx as [Hx|Hx]; [apply Hmid'in in Hx as (z & Hz & ->); specialize (Hmidc z Hz); simpl; lia|].
           rewrite (Hp1 x Hx). lia.
      * intros x y Hx [<-|Hy]; [auto|]. left. specialize (A1 x Hx). apply in_app_or in Hy as [Hy|Hy]; [apply Hmid'in in Hy as (z & Hz & ->); specialize (Hmidc z Hz); simpl; lia|].
        rewrite (Hp1 y Hy). lia.
    + constructor; [rewrite E3 in Hpost; apply sorted_app in Hpost; apply Hpost|]. apply Forall_forall. intros x Hx. left. rewrite Hbt. apply C2. exact Hx.
    + intros x y Hx Hy. assert (Hxe : ev_time x < e \/ In x p1).
      { apply in_app_or in Hx as [Hx|[<-|Hx]]; [specialize (A1 x Hx); lia|simpl; lia|]. apply in_app_or in Hx as [Hx|Hx]; [|auto].
        apply Hmid'in in Hx as (z & Hz & ->). specialize (Hmidc z Hz). simpl. lia. }
      destruct Hy as [<-|Hy].
      * destruct Hxe as [Hxe|Hxe]; [left; lia|]. right. rewrite Hbt, Hb, (Hp1 x Hxe). split; [reflexivity|].
        destruct (last_event p1) as [z|] eqn:El; [|destruct p1; [destruct Hxe|exfalso; destruct (last_event_some (s0 :: p1)) as [? Hsome]; [discriminate|congruence]]].
        assert (Sp1 : StronglySorted later p1) by (rewrite E3 in Hpost; apply sorted_app in Hpost; apply Hpost).
        assert (G := event_avail 0 p1 x Sp1 Hxe). rewrite avail_all, El in G; [exact G|]. intros w Hw. rewrite (Hp1 w Hw), (Hp1 x Hxe). lia.
      * left. specialize (C2 y Hy). destruct Hxe as [Hxe|Hxe]; [lia|]. rewrite (Hp1 x Hxe). exact C2.
  - (* availability *)
    intros t Ht. cbn [load]. unfold active. cbn [b_start b_end b_count]. assert (Old := tk_avail _ _ _ T t Ht).
    rewrite <- app_assoc, avail_app. cbn [app]. change (st :: (mid' ++ p1) ++ en :: p2) with ([st] ++ (mid' ++ p1) ++ en :: p2).
    rewrite !avail_app. change (en :: p2) with ([en] ++ p2). rewrite !avail_app.
    rewrite E1, E2, E3, !avail_app in Old.
    assert (Ast : forall d, avail d [st] t = if s <=? t then ev_count a - c else d) by reflexivity.
    assert (Aen : forall d, avail d [en] t = if e <=? t then ev_count en else d) by (intros d; unfold avail; simpl; reflexivity).
    rewrite Ast, Aen. destruct (Z.leb_spec s t) as [L1|L1], (Z.ltb_spec t e) as [L2|L2]; cbn [andb].
    + destruct (Z.leb_spec e t); [lia|]. assert (Apre : avail cap pre t = ev_count a) by (rewrite avail_all, Ea; [reflexivity|]; intros x Hx; specialize (A1 x Hx); lia).
      rewrite Apre in Old. unfold mid'. rewrite avail_shift.
      assert (N1 : forall d, avail d p1 t = d) by (intros d; apply avail_none; intros x Hx; rewrite (Hp1 x Hx); lia).
      assert (N2 : forall d, avail d p2 t = d) by (intros d; apply avail_none; intros x Hx; specialize (C2 x Hx); lia).
      rewrite N1, N2. rewrite N1, N2 in Old. lia.
    + destruct (Z.leb_spec e t); [|lia]. assert (Apre : avail cap pre t = ev_count a) by (rewrite avail_all, Ea; [reflexivity|]; intros x Hx; specialize (A1 x Hx); lia).
      rewrite Apre in Old. assert (Amid : avail (ev_count a) mid t = m).
      { unfold m. rewrite !avail_all; [reflexivity| |]; intros x Hx; specialize (Hmidc x Hx); lia. }
      rewrite Amid in Old. assert (Ap1 : avail m p1 t = ev_count en) by (rewrite avail_all, Hb; [reflexivity|]; intros x Hx; rewrite (Hp1 x Hx); lia).
      rewrite Ap1 in Old. lia.
    + destruct (Z.leb_spec e t); [lia|].
      assert (N0 : forall d, avail d mid t = d) by (intros d; apply avail_none; intros x Hx; specialize (Hmidc x Hx); lia).
      assert (N0' : forall d, avail d mid' t = d) by (intros d; apply avail_none; intros x Hx; apply Hmid'in in Hx as (z & Hz & ->); specialize (Hmidc z Hz); simpl; lia).
      rewrite N0 in Old. rewrite N0'.
      assert (N1 : forall d, avail d p1 t = d) by (intros d; apply avail_none; intros x Hx; rewrite (Hp1 x Hx); lia).
      assert (N2 : forall d, avail d p2 t = d) by (intros d; apply avail_none; intros x Hx; specialize (C2 x Hx); lia).
      rewrite N1, N2. rewrite N1, N2 in Old. lia.
    + lia.
  - intros b0 [<-|Hb0]; cbn [b_start b_end].
    + rewrite !map_app. cbn [map]. rewrite Hbt. split; [apply in_or_app; left; apply in_or_app; right; left; reflexivity|apply in_or_app; right; left; reflexivity].
    + destruct (tk_events _ _ _ T b0 Hb0) as [H1 H2]. apply in_map_iff in H1 as (y1 & <- & H1). apply in_map_iff in H2 as (y2 & <- & H2). split; apply Hold; assumption.
  - intros b0 [<-|Hb0]; [simpl; lia|apply (tk_bookings _ _ _ T b0 Hb0)].
  - intros x Hx. destruct (Hnew x Hx) as [E|[E|(y & Hy & E)]].
    + right. exists (Bk s e c). simpl. auto.
    + right. exists (Bk s e c). simpl. auto.
    + rewrite E. destruct (tk_times _ _ _ T y Hy) as [H0|(b0 & Hb0 & H0)]; [auto|]. right. exists b0. simpl. auto.
Qed.

(** ** The earliest start *)
Lemma last_short_spec l req base n : match last_short l req base n with
  | None => forall i e, (base <= i < base + n)%nat -> nth_error l i = Some e -> req <= ev_count e
  | Some i => (base <= i < base + n)%nat /\ exists e, nth_error l i = Some e /\ ev_count e < req
  end.
Proof.
  induction n as [|n IH]; simpl; [intros i e Hi; lia|]. destruct (nth_error l (base + n)) as [x|] eqn:Ex.
  - destruct (Z.ltb_spec (ev_count x) req) as [L|L]; [split; [lia|eauto]|]. destruct (last_short l req base n) as [i|].
    + destruct IH as [H1 H2]. split; [lia|exact H2].
    + intros i e Hi He. destruct (Nat.eq_dec i (base + n)) as [->|Ne]; [|apply (IH i); [lia|exact He]]. rewrite Ex in He. injection He as ->. exact L.
  - destruct (last_short l req base n) as [i|].
    + destruct IH as [H1 H2]. split; [lia|exact H2].
    + intros i e Hi He. destruct (Nat.eq_dec i (base + n)) as [->|Ne]; [congruence|apply (IH i); [lia|exact He]].
Qed.
Lemma sorted_nth l i j x y : StronglySorted later l -> nth_error l i = Some x -> nth_error l j = Some y -> (i <= j)%nat -> ev_time x <= ev_time y.
Proof.
  intros H. revert i j. induction H as [|a l H IH F]; intros i j Hi Hj L; [destruct i; discriminate|]. destruct i as [|i], j as [|j]; [|  |lia|].
  - simpl in *. injection Hi as <-. injection Hj as <-. lia.
  - simpl in *. injection Hi as <-. rewrite Forall_forall in F. apply nth_error_In in Hj. specialize (F y Hj). unfold later in F. lia.
  - simpl in *. apply (IH i j); [assumption|assumption|lia].
Qed.
Lemma time_at_some l i e : nth_error l i = Some e -> time_at l i = ev_time e.
Proof. intros H. unfold time_at. rewrite H. reflexivity. Qed.
Lemma last_event_nth l : last_event l = nth_error l (length l - 1).
Proof.
  destruct l as [|x l _] using rev_ind; [reflexivity|]. rewrite last_event_app. simpl. rewrite app_length. simpl.
  replace (length l + 1 - 1)%nat with (length l + 0)%nat by lia. rewrite nth_error_app2 by lia. replace (length l + 0 - length l)%nat with 0%nat by lia. reflexivity.
Qed.
Lemma upto_avail d l t : StronglySorted later l -> avail d l t = match last_event (fst (upto l t)) with Some e => ev_count e | None => d end.
Proof.
  intros H. destruct (upto_spec l t H) as (E & A & B). rewrite E at 1. rewrite avail_app, (avail_none _ _ _ B). apply avail_all. exact A.
Qed.
Lemma load_zero bs t : (forall b, In b bs -> b_end b <= t) -> load bs t = 0.
Proof.
  induction bs as [|b bs IH]; intros H; [reflexivity|]. simpl. rewrite IH by (intros; apply H; right; assumption). specialize (H b (or_introl eq_refl)).
  unfold active. destruct (Z.ltb_spec t (b_end b)); [lia|]. rewrite andb_false_r. reflexivity.
Qed.
Lemma load_nonneg bs t : (forall b, In b bs -> 0 <= b_count b) -> 0 <= load bs t.
Proof.
  induction bs as [|b bs IH]; intros H; [simpl; lia|]. simpl. specialize (IH ltac:(intros; apply H; right; assumption)). specialize (H b (or_introl eq_refl)).
  destruct (active b t); lia.
Qed.

Lemma earliest_spec cap l bs req parent exec : tracks cap l bs -> (forall e, In e l -> ev_time e < TIME_INF) -> 0 <= parent -> 0 < exec ->
  exists v, earliest l req parent exec = Some v /\ parent <= v /\ (v = parent \/ In v (map ev_time l)) /\
    (req <= cap -> forall t, v <= t < v + exec -> load bs t + req <= cap) /\
    ((forall e, In e l -> req <= ev_count e) -> v = parent).
Proof.
  intros T Hfin Hp Hx. assert (Hs := tk_sorted _ _ _ T). destruct (tk_head _ _ _ T) as [r0 Hr0].
  assert (Hlen : (0 < length l)%nat) by (rewrite Hr0; simpl; lia).
  assert (Eb : before l TIME_INF = (l, [])).
  { apply span_unique; [rewrite app_nil_r; reflexivity| |exact I]. intros e He. specialize (Hfin e He). lia. }
  unfold earliest. rewrite Eb. cbn [fst].
  destruct (nth_error l (length l - 1)) as [la|] eqn:Ela; [|apply nth_error_None in Ela; lia].
  rewrite (time_at_some _ _ _ Ela). set (L := ev_time la).
  assert (HL : forall e, In e l -> ev_time e <= L).
  { intros e He. apply In_nth_error in He as [i Hi]. apply (sorted_nth l i (length l - 1)); try assumption.
    assert (i < length l)%nat by (apply nth_error_Some; congruence). lia. }
  assert (HinL : In la l) by (apply nth_error_In in Ela; exact Ela).
  assert (Hend : forall t, L <= t -> load bs t = 0).
  { intros t Ht. apply load_zero. intros b Hb. destruct (tk_events _ _ _ T b Hb) as [_ H]. apply in_map_iff in H as (e & <- & He). specialize (HL e He). lia. }
  assert (HlaC : ev_count la = cap).
  { assert (0 <= L) by (apply (tracks_nonneg _ _ _ _ T HinL)). assert (G := tk_avail _ _ _ T L). rewrite (Hend L) in G by lia.
    rewrite avail_all, last_event_nth, Ela in G by exact HL. lia. }
  assert (Main : forall fuel cur base, (length l - base <= fuel)%nat -> (base < length l)%nat -> 0 <= cur -> time_at l base <= cur ->
      (forall i e, nth_error l i = Some e -> (base < i)%nat -> cur <= ev_time e) ->
      exists v, earliest_loop fuel l req exec L cur base = Some v /\ cur <= v /\ (v = cur \/ In v (map ev_time l)) /\
        (req <= cap -> forall t, v <= t < v + exec -> load bs t + req <= cap) /\ ((forall e, In e l -> req <= ev_count e) -> v = cur)).
  { induction fuel as [|fuel IH]; intros cur base Hf Hb Hc Ht Hlater; [lia|]. cbn [earliest_loop]. destruct (Z.ltb_spec cur L) as [Lt|Lt].
    2:{ exists cur. split; [reflexivity|]. split; [lia|]. split; [left; reflexivity|]. split; [|reflexivity]. intros Hr t Ht'. rewrite Hend by lia. lia. }
    set (n := length (fst (upto l (cur + exec)))). assert (LS := last_short_spec l req base (n - base)).
    destruct (last_short l req base (n - base)) as [i|].
    - destruct LS as (Hi & e & He & Hce). assert (Hil : (i < length l)%nat) by (apply nth_error_Some; congruence).
      destruct (Nat.eq_dec i (length l - 1)) as [Ei|Ni].
      + (* the last event has too few *)
        replace (Nat.min (length l - 1) (i + 1)) with (length l - 1)%nat by lia. rewrite (time_at_some _ _ _ Ela). fold L.
        exists L. split; [destruct fuel; cbn [earliest_loop]; rewrite Z.ltb_irrefl; reflexivity|]. split; [lia|].
        split; [right; apply in_map; exact HinL|]. split; [intros Hr t Ht'; rewrite Hend by lia; lia|]. intros Hall. specialize (Hall e (nth_error_In _ _ He)). lia.
      + replace (Nat.min (length l - 1) (i + 1)) with (i + 1)%nat by lia.
        destruct (nth_error l (i + 1)) as [y|] eqn:Ey; [|apply nth_error_None in Ey; lia].
        assert (Hcy : cur <= ev_time y) by (apply (Hlater (i + 1)%nat); [exact Ey|lia]).
        destruct (IH (time_at l (i + 1)) (i + 1)%nat) as (v & Ev & V1 & V2 & V3 & V4); [lia|lia|rewrite (time_at_some _ _ _ Ey); lia|lia| |].
        * intros j z Hj Hij. rewrite (time_at_some _ _ _ Ey). apply (sorted_nth l (i + 1) j); [assumption..|lia].
        * exists v. split; [exact Ev|]. rewrite (time_at_some _ _ _ Ey) in V1. split; [lia|]. split; [|split; [exact V3|]].
          -- right. destruct V2 as [->|V2]; [rewrite (time_at_some _ _ _ Ey); apply in_map; apply nth_error_In in Ey; exact Ey|exact V2].
          -- intros Hall. specialize (Hall e (nth_error_In _ _ He)). lia.
    - exists cur. split; [reflexivity|]. split; [lia|]. split; [left; reflexivity|]. split; [|reflexivity]. intros Hr t Ht'.
      assert (Av := tk_avail _ _ _ T t ltac:(lia)). rewrite (upto_avail _ _ _ Hs) in Av. destruct (upto_spec l t Hs) as (E & A & B).
      set (a := fst (upto l t)) in *. set (b := snd (upto l t)) in *.
      destruct (upto_spec l (cur + exec) Hs) as (E' & A' & B'). fold n in LS.
      destruct (nth_error l base) as [eb|] eqn:Eeb; [|apply nth_error_None in Eeb; lia]. rewrite (time_at_some _ _ _ Eeb) in Ht.
      assert (Hba : (base < length a)%nat).
      { destruct (Nat.lt_ge_cases base (length a)) as [?|G]; [assumption|]. exfalso. assert (In eb b).
        { apply nth_error_In with (base - length a)%nat. rewrite <- nth_error_app2 by exact G. rewrite <- E. exact Eeb. } specialize (B eb H). lia. }
      assert (Han : (length a <= n)%nat).
      { destruct (Nat.le_gt_cases (length a) n) as [?|G]; [assumption|]. exfalso. unfold n in G. set (a' := fst (upto l (cur + exec))) in *. set (b' := snd (upto l (cur + exec))) in *.
        destruct (nth_error l (length a')) as [z|] eqn:Ez; [|apply nth_error_None in Ez; rewrite E, app_length in Ez; lia].
        assert (In z b') by (apply nth_error_In with 0%nat; rewrite E', nth_error_app2, Nat.sub_diag in Ez by lia; exact Ez).
        assert (In z a) by (apply nth_error_In with (length a'); rewrite E, nth_error_app1 in Ez by lia; exact Ez). specialize (A z H0). specialize (B' z H). lia. }
      rewrite last_event_nth in Av. destruct (nth_error a (length a - 1)) as [z|] eqn:Ez; [|apply nth_error_None in Ez; lia].
      assert (Ez' : nth_error l (length a - 1) = Some z) by (rewrite E, nth_error_app1 by lia; exact Ez).
      assert (G := LS (length a - 1)%nat z ltac:(lia) Ez'). lia. }
  destruct (upto_spec l parent Hs) as (E & A & B). set (a := fst (upto l parent)) in *. set (b := snd (upto l parent)) in *.
  assert (Ha : (0 < length a)%nat).
  { destruct a as [|z a']; [|simpl; lia]. exfalso. simpl in E. assert (In (Ev 0 cap) b) by (rewrite <- E, Hr0; left; reflexivity). specialize (B _ H). simpl in B. lia. }
  assert (Hal : (length a <= length l)%nat) by (rewrite E, app_length; lia).
  apply Main; [lia|lia|exact Hp| |].
  - destruct (nth_error a (length a - 1)) as [z|] eqn:Ez; [|apply nth_error_None in Ez; lia].
    rewrite (time_at_some l (length a - 1) z) by (rewrite E, nth_error_app1 by lia; exact Ez). apply A. apply nth_error_In in Ez. exact Ez.
  - intros i e He Hi. rewrite E, nth_error_app2 in He by lia. apply nth_error_In in He. specialize (B e He). lia.
Qed.
