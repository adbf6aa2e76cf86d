From Coq Require Import ZArith List Bool Lia Arith ZifyBool ZifyNat.
From Verif Require Import TimeModel TimeProofs MomentumModel JITModel MomentumSpec MomentumHistory MomentumProofs MomentumTeamProofs
  GraphModel ScheduleModel ScheduleSpec TeamProofs ScheduleProofs ScheduleInv SchedulePoolProofs ScheduleSafe SgsModel SgsSpec.
Import ListNotations.
Local Open Scope Z_scope.

(** ** Lists *)
Lemma map_opt_forall2 {A B} (f : A -> option B) : forall l l', map_opt f l = Some l' <-> Forall2 (fun x y => f x = Some y) l l'.
Proof.
  induction l as [|x l IH]; intros l'; simpl; split.
  - intros [= <-]. constructor.
  - intros H. inversion H. reflexivity.
  - destruct (f x) eqn:E; [|discriminate]. destruct (map_opt f l) eqn:Em; [|discriminate]. intros [= <-].
    constructor; [exact E|]. apply IH. reflexivity.
  - intros H. inversion H; subst. rewrite H2. apply IH in H4. rewrite H4. reflexivity.
Qed.
Lemma map_opt_total {A B} (f : A -> option B) l : (forall x, In x l -> exists y, f x = Some y) -> exists l', map_opt f l = Some l'.
Proof.
  induction l as [|x l IH]; simpl; intros H; [eauto|]. destruct (H x (or_introl eq_refl)) as [y ->].
  destruct IH as [l' ->]; eauto.
Qed.
Lemma index_of_nth l x i : index_of l x = Some i -> nth_error l i = Some x.
Proof.
  revert i. induction l as [|y l IH]; simpl; intros i; [discriminate|].
  destruct (Nat.eqb_spec y x); [intros [= <-]; subst; reflexivity|].
  destruct (index_of l x); [|discriminate]. intros [= <-]. simpl. auto.
Qed.
Lemma index_of_in l x : In x l -> exists i, index_of l x = Some i.
Proof.
  induction l as [|y l IH]; simpl; intros H; [destruct H|]. destruct (Nat.eqb_spec y x); [eauto|].
  destruct H as [|H]; [contradiction|]. destruct (IH H) as [i ->]. eauto.
Qed.
Lemma nth_index_of l x i : NoDup l -> nth_error l i = Some x -> index_of l x = Some i.
Proof.
  revert i. induction l as [|y l IH]; intros i Hnd H; [destruct i; discriminate|]. inversion Hnd; subst. simpl.
  destruct i as [|i]; simpl in H.
  - injection H as ->. rewrite Nat.eqb_refl. reflexivity.
  - destruct (Nat.eqb_spec y x); [exfalso; subst; apply H2; eapply nth_error_In; eauto|]. rewrite (IH i); auto.
Qed.
Lemma assoc_get_nodup_in (l : list (nat * Z)) k n : NoDup (map fst l) -> In (k, n) l -> assoc_get l k = Some n.
Proof.
  induction l as [|[j m] l IH]; simpl; intros Hnd H; [destruct H|]. inversion Hnd; subst.
  destruct H as [[= -> ->]|H]; [rewrite Nat.eqb_refl; reflexivity|].
  destruct (Nat.eqb_spec j k); [exfalso; subst; apply H2; apply in_map_iff; exists (k, n); auto|auto].
Qed.
Lemma assoc_get_some (l : list (nat * Z)) k : In k (map fst l) -> exists n, assoc_get l k = Some n.
Proof.
  induction l as [|[j m] l IH]; simpl; intros H; [destruct H|]. destruct (Nat.eqb_spec j k); [eauto|].
  destruct H as [|H]; [contradiction|auto].
Qed.

(** ** The pool *)
Section Pool.
  Variables (names : list nat) (ch : chromosome).

  Lemma with_borders_nth : forall l ci bl, with_borders names ch ci l = Some bl ->
    map ct_id bl = map ct_id l /\
    forall i c, nth_error l i = Some c -> exists bc, nth_error bl i = Some bc /\ ct_id bc = ct_id c /\
      map fst (ct_workers bc) = map fst (ct_workers c) /\
      forall k n, In (k, n) (ct_workers bc) -> border_at names ch (ci + i) k = Some n.
  Proof.
    induction l as [|c l IH]; intros ci bl; simpl.
    - intros [= <-]. split; [reflexivity|]. intros [|i] c H; discriminate.
    - destruct (map_opt _ (ct_workers c)) as [ws|] eqn:E; [|discriminate].
      destruct (with_borders names ch (S ci) l) as [bl'|] eqn:Eb; [|discriminate]. intros [= <-].
      destruct (IH _ _ Eb) as [IH1 IH2]. split; [simpl; congruence|]. intros [|i] c' H; simpl in *.
      + injection H as <-. eexists. split; [reflexivity|]. split; [reflexivity|]. simpl.
        apply map_opt_forall2 in E. clear -E. split.
        * induction E as [|[k m] y l l' H _ IH]; [reflexivity|]. simpl in *. destruct (border_at _ _ _ _); [|discriminate].
          injection H as <-. simpl. congruence.
        * intros k n Hin. induction E as [|[j m] y l l' H _ IH]; [destruct Hin|]. simpl in *.
          destruct (border_at names ch ci j) eqn:Eb; [|discriminate]. injection H as <-. destruct Hin as [[= <- <-]|Hin]; [|auto].
          rewrite Nat.add_0_r. exact Eb.
      + destruct (IH2 i c' H) as (bc & B1 & B2 & B3 & B4). exists bc. repeat (split; [assumption|]).
        intros k n Hin. replace (ci + S i)%nat with (S ci + i)%nat by lia. auto.
  Qed.

  Lemma border_at_for ci k b : border_at names ch ci k = Some b -> border_for names (ch_borders ch) ci k b.
  Proof.
    unfold border_at, border_for. destruct (nth_error (ch_borders ch) ci) as [row|]; [|discriminate].
    destruct (index_of names k) as [j|] eqn:Ej; [|discriminate]. apply index_of_nth in Ej. eauto.
  Qed.
  Lemma border_for_at ci k b : NoDup names -> border_for names (ch_borders ch) ci k b -> border_at names ch ci k = Some b.
  Proof.
    intros Hnd (row & j & E1 & E2 & E3). unfold border_at. rewrite E1, (nth_index_of _ _ _ Hnd E2). exact E3.
  Qed.

  Variable cs : list contractor.
  Hypothesis Hcs : contractors_ok cs.
  Hypothesis Hch : chromosome_ok ch.

  Lemma bordered_ok bcs : with_borders names ch 0 cs = Some bcs -> contractors_ok bcs.
  Proof.
    intros H. destruct (with_borders_nth _ _ _ H) as [H1 H2]. destruct Hcs as [C1 C2].
    split; [rewrite H1; exact C1|]. intros bc Hbc. apply In_nth_error in Hbc as [i Hi].
    assert (Hlt : (i < length cs)%nat).
    { rewrite <- (map_length ct_id cs), <- H1, map_length. apply nth_error_Some. congruence. }
    destruct (nth_error cs i) as [c|] eqn:Ec; [|apply nth_error_None in Ec; lia].
    destruct (H2 i c Ec) as (bc' & B1 & B2 & B3 & B4). rewrite B1 in Hi. injection Hi as ->.
    split; [rewrite B3; apply C2; eapply nth_error_In; eauto|]. intros k n Hin. apply B4 in Hin.
    apply border_at_for in Hin as (row & j & E1 & E2 & E3). destruct Hch as (_ & Hb & _).
    eapply Hb; eapply nth_error_In; eauto.
  Qed.
  Lemma bordered_capacity bcs ci c k b : with_borders names ch 0 cs = Some bcs -> nth_error cs ci = Some c ->
    In k (map fst (ct_workers c)) -> border_at names ch ci k = Some b -> capacity (pool_of bcs) (ct_id c, k) = Some b.
  Proof.
    intros H Hc Hk Hb. assert (Hok := bordered_ok bcs H). destruct (with_borders_nth _ _ _ H) as [H1 H2].
    destruct (H2 ci c Hc) as (bc & B1 & B2 & B3 & B4). rewrite <- B3 in Hk. apply in_map_iff in Hk as ([k' m] & <- & Hin).
    simpl in *. assert (Hm := B4 _ _ Hin). rewrite Hm in Hb. injection Hb as ->.
    rewrite <- B2. apply capacity_pool; auto. eapply nth_error_In; eauto.
  Qed.
End Pool.

(** ** Teams *)
Lemma team_shape id (rqs : list req) tm : NoDup (map r_kind rqs) ->
  Forall2 (fun r k => w_contractor k = id /\ w_kind k = r_kind r /\ 0 <= w_count k) rqs tm ->
  let t := team_of_contractor id (combine (map r_kind rqs) (map w_count tm)) in
  tm = to_workers t /\ team_ok t.
Proof.
  intros Hnd HF. cbv zeta. split.
  - clear Hnd. induction HF as [|r k rqs tm (H1 & H2 & H3) HF IH]; [reflexivity|]. simpl.
    rewrite IH at 1. f_equal. destruct k; simpl in *. congruence.
  - split.
    + assert (E : map fst (team_of_contractor id (combine (map r_kind rqs) (map w_count tm))) = map (fun k => (id, k)) (map r_kind rqs)).
      { clear Hnd. induction HF as [|r k rqs tm _ HF IH]; [reflexivity|]. simpl. f_equal. exact IH. }
      rewrite E. apply FinFun.Injective_map_NoDup; [|exact Hnd]. intros x y H. congruence.
    + intros a n Hin. apply in_map_iff in Hin as ([k m] & [= <- <-] & Hin). simpl.
      apply in_combine_r in Hin. apply in_map_iff in Hin as (x & <- & Hx).
      clear Hnd. induction HF as [|r y rqs tm (_ & _ & H3) HF IH]; [destruct Hx|]. destruct Hx as [<-|Hx]; auto.
Qed.

Lemma spec_count_get sp rqs k m : NoDup (map fst (sp_workers sp)) -> (spec_count sp rqs k m <->
  assoc_get (sp_workers sp) k = Some m /\ (length (sp_workers sp) = length rqs \/ 0 < m)).
Proof.
  intros Hnd. unfold spec_count. split; intros [H1 H2]; (split; [|exact H2]).
  - apply assoc_get_nodup_in; assumption.
  - apply assoc_get_in. exact H1.
Qed.

Section Team.
  Variables (g : graph) (names : list nat) (cs : list contractor) (nodes : list nat) (ch : chromosome).
  Hypothesis Hnames : NoDup names.
  Hypothesis Hch : chromosome_ok ch.

  Lemma serial_counts n amounts c t0 team :
    serial_team names c amounts (reqs_of g n) = Some t0 ->
    apply_spec (sp_workers (ch_spec ch n)) (reqs_of g n) t0 = Some team ->
    Forall2 (fun r k => w_contractor k = ct_id c /\ w_kind k = r_kind r /\
                        (exists a, In (r_kind r, a) (ct_workers c)) /\
                        gene_count names (ch_spec ch n) (reqs_of g n) amounts (r_kind r) (w_count k))
            (reqs_of g n) team.
  Proof.
    intros Ht Ha.
    destruct Hch as (_ & _ & Hsp). destruct (Hsp n) as [_ Hnd]. clear Hsp.
    set (sp := ch_spec ch n) in *. set (rqs := reqs_of g n) in *.
    apply map_opt_forall2 in Ht. apply map_opt_forall2 in Ha.
    assert (Hall : forall r, In r rqs -> In (r_kind r) (map r_kind rqs)) by (intros; apply in_map; assumption).
    assert (Gen : forall l t0 t, (forall r, In r l -> In (r_kind r) (map r_kind rqs)) ->
      Forall2 (fun r y => match assoc_get (ct_workers c) (r_kind r), index_of names (r_kind r) with
        | Some _, Some i => match nth_error amounts i with Some n => Some (Wk (ct_id c) (r_kind r) n) | None => None end
        | _, _ => None end = Some y) l t0 ->
      Forall2 (fun w y => (if existsb (Nat.eqb (w_kind w)) (map r_kind rqs) then
        if Nat.eqb (length (sp_workers sp)) (length rqs) then
        match assoc_get (sp_workers sp) (w_kind w) with
        | Some n => Some (Wk (w_contractor w) (w_kind w) n)
        | None => None
        end
      else Some (Wk (w_contractor w) (w_kind w)
                    (match assoc_get (sp_workers sp) (w_kind w) with
                     | Some n => if 0 <? n then n else w_count w
                     | None => w_count w
                     end))
        else Some w) = Some y) t0 t ->
      Forall2 (fun r k => w_contractor k = ct_id c /\ w_kind k = r_kind r /\
                        (exists a, In (r_kind r, a) (ct_workers c)) /\
                        gene_count names sp rqs amounts (r_kind r) (w_count k)) l t); [|eapply Gen; eauto].
    clear Ht Ha t0 team Hall. induction l as [|r l IH]; intros t0 t Hall H1 H2.
    - inversion H1; subst. inversion H2; subst. constructor.
    - inversion H1 as [|? x ? t0' E1 F1]; subst. inversion H2 as [|? y ? t' E2 F2]; subst.
      constructor; [|eapply IH; eauto; intros; apply Hall; right; assumption].
      destruct (assoc_get (ct_workers c) (r_kind r)) as [a|] eqn:Ea; [|discriminate].
      destruct (index_of names (r_kind r)) as [i|] eqn:Ei; [|discriminate].
      destruct (nth_error amounts i) as [m|] eqn:Em; [|discriminate]. injection E1 as <-. simpl in E2.
      assert (Hex : existsb (Nat.eqb (r_kind r)) (map r_kind rqs) = true).
      { apply existsb_exists. exists (r_kind r). split; [apply Hall; left; reflexivity|apply Nat.eqb_refl]. }
      rewrite Hex in E2. apply assoc_get_in in Ea. apply index_of_nth in Ei.
      destruct (Nat.eqb_spec (length (sp_workers sp)) (length rqs)) as [El|El].
      + destruct (assoc_get (sp_workers sp) (r_kind r)) as [x|] eqn:Es; [|discriminate]. injection E2 as <-. simpl.
        repeat (split; [eauto|]). left. apply spec_count_get; auto.
      + injection E2 as <-. simpl. repeat (split; [eauto|]).
        destruct (assoc_get (sp_workers sp) (r_kind r)) as [x|] eqn:Es.
        * destruct (Z.ltb_spec 0 x); [left; apply spec_count_get; auto|].
          right. split; [|eauto]. intros m' Hm'. apply spec_count_get in Hm'; [|exact Hnd]. rewrite Es in Hm'.
          destruct Hm' as [[= ->] [?|?]]; [congruence|lia].
        * right. split; [|eauto]. intros m' Hm'. apply spec_count_get in Hm'; [|exact Hnd]. destruct Hm'; congruence.
  Qed.

  Lemma serial_gene_team w n amounts ci c t0 team :
    nth_error nodes w = Some n -> nth_error (ch_rows ch) w = Some (amounts, ci) -> nth_error cs ci = Some c ->
    serial_team names c amounts (reqs_of g n) = Some t0 ->
    apply_spec (sp_workers (ch_spec ch n)) (reqs_of g n) t0 = Some team ->
    gene_team g names cs nodes ch n team (ct_id c).
  Proof.
    intros Hn Hr Hc Ht Ha. exists amounts, ci, c. split; [exists w; auto|]. split; [exact Hc|]. split; [reflexivity|].
    eapply serial_counts; eauto.
  Qed.

  Lemma gene_team_shape n team cid : reqs_ok (reqs_of g n) -> gene_team g names cs nodes ch n team cid ->
    Forall2 (fun r k => w_contractor k = cid /\ w_kind k = r_kind r /\ 0 <= w_count k) (reqs_of g n) team.
  Proof.
    intros _ (amounts & ci & c & (i & Hn & Hr) & Hc & -> & HF). change (u_reqs (g_unit g n)) with (reqs_of g n) in HF.
    destruct Hch as (Ha & _ & Hsp). destruct (Hsp n) as [[Hsp1 _] _].
    revert HF. generalize (reqs_of g n) at 2 3 as l. intros l HF.
    induction HF as [|r k l tm (H1 & H2 & H3 & H4) HF IH]; constructor; [|exact IH].
    split; [exact H1|]. split; [exact H2|].
    destruct H4 as [[H4 _]|(_ & j & _ & Hj)]; [eapply Hsp1; eauto|]. eapply Ha; eapply nth_error_In; eauto.
  Qed.
End Team.

(** ** Times stay below the infinite one *)
Definition times_le (s : mstate) : Prop := forall x, In x (all_times (m_tl s)) -> x <= TIME_INF.

Lemma slot_loop_cases state exec required last : forall fuel cur i r,
  slot_loop fuel state exec required last cur i = Some r -> r = cur \/ In r (map ev_time state).
Proof.
  induction fuel as [|fuel IH]; intros cur i r; cbn [slot_loop]; [discriminate|].
  destruct (cur <? last); [|intros [= <-]; auto].
  destruct (last_fail _ _ _) as [j|]; [|intros [= <-]; auto].
  destruct (nth_error state (S j)) as [e|] eqn:E; [|discriminate]. intros H. apply IH in H as [->|H]; [|auto].
  right. apply in_map. eapply nth_error_In; eauto.
Qed.
Lemma py_nth_in {A} (l : list A) i x : py_nth l i = Some x -> In x l.
Proof. unfold py_nth. repeat (destruct (_ <? _)); try discriminate; apply nth_error_In. Qed.
Lemma earliest_slot_le state pt d req ind r : pt <= TIME_INF -> (forall x, In x (map ev_time state) -> x <= TIME_INF) ->
  find_earliest_time_slot state pt d req ind = Some r -> r <= TIME_INF.
Proof.
  intros Hpt Hs. unfold find_earliest_time_slot. destruct (d =? 0); [intros [= <-]; exact Hpt|].
  destruct (py_nth state (-1)) as [e|] eqn:E; [|discriminate]. apply py_nth_in, (in_map ev_time) in E.
  destruct ind; [intros [= <-]; rewrite tmax_spec; apply Hs in E; lia|].
  intros H. apply slot_loop_cases in H as [->|H]; auto.
Qed.
Lemma queue_loop_le slot : (forall k st r, st <= TIME_INF -> slot k st = Some r -> r <= TIME_INF) ->
  forall fuel q sch st r, st <= TIME_INF -> queue_loop fuel slot q sch st = Some r -> r <= TIME_INF.
Proof.
  intros Hs. induction fuel as [|fuel IH]; intros q sch st r Hst; cbn [queue_loop]; [discriminate|].
  destruct q as [|k q]; [intros [= <-]; exact Hst|].
  destruct (slot k st) as [found|] eqn:E; [|discriminate]. apply Hs in E; [|exact Hst].
  destruct (found <? st); [discriminate|]. destruct sch; [apply IH; exact E|]. destruct (st =? found); apply IH; exact E.
Qed.
Lemma find_min_start_le s c chain ind pt d team r : times_le s -> pt <= TIME_INF ->
  find_min_start_time (m_tl s) c chain ind pt d team = Some r -> r <= TIME_INF.
Proof.
  intros Hs Hpt. unfold find_min_start_time. destruct (forallb fst chain); [intros [= <-]; exact Hpt|].
  destruct (chain_lacks_workers _ _ _ _) as [[|]|]; try discriminate.
  - intros [= <-]. reflexivity.
  - destruct chain as [|[b reqs] ch]; [discriminate|]. apply queue_loop_le; [|exact Hpt].
    intros k st r' Hst. unfold kind_slot. destruct (tl_get (m_tl s) (c, k)) as [state|] eqn:Eg; [|discriminate].
    destruct (type2count team k) as [cnt|]; [|discriminate]. apply earliest_slot_le; [exact Hst|].
    intros x Hx. apply Hs. eapply tl_get_times; eauto.
Qed.
Lemma momentum_find_le g est sd s n team ind apt st ft times :
  0 <= apt <= TIME_INF -> times_le s ->
  momentum_find g est sd s n team ind None apt = Some (st, ft, times) ->
  parent_bound g sd None apt n <= st <= TIME_INF.
Proof.
  intros Hapt Hs H. unfold momentum_find in H.
  destruct (chain_of g n) as [chain|]; [|discriminate].
  destruct (parent_bound_range g sd None apt n Hapt I) as [Hb _].
  destruct (chain_exec _ _ _ _ _ _ _) as [exec tms] eqn:E.
  destruct team as [|w team]; [injection H as <- <- _; lia|].
  destruct (find_min_start_time _ _ _ _ _ _ _) as [r|] eqn:Ef; [|discriminate].
  destruct (validate _ _ _ _); [|discriminate]. injection H as <- _ _.
  split; [eapply find_min_start_ge; [|exact Ef]; lia|]. eapply find_min_start_le; [exact Hs| |exact Ef]. lia.
Qed.
Lemma place_chain_le team c : forall chain times cur sd fin sd', cur <= TIME_INF ->
  place_chain team c cur chain times sd = (fin, sd') -> fin <= TIME_INF.
Proof.
  induction chain as [|n chain IH]; intros [|[lag t] times] cur sd fin sd' Hc; cbn [place_chain];
    try (intros [= <- _]; exact Hc). intros H. eapply IH; [|exact H]. apply set_time_range.
Qed.
Lemma momentum_schedule_le g est sd s n team c sp st apt sd' s' : times_le s -> st <= TIME_INF -> 0 <= apt <= TIME_INF ->
  momentum_schedule g est sd s n team c sp (Some st) apt = Some (sd', s') -> times_le s'.
Proof.
  intros Hs Hst Hapt. unfold momentum_schedule. destruct (chain_of g n) as [chain|] eqn:Ec; [|discriminate].
  destruct (momentum_find _ _ _ _ _ _ _ _ _) as [[[st0 ft0] times0]|] eqn:Ef; [|discriminate].
  assert (Hst0 : st0 <= TIME_INF).
  { unfold momentum_find in Ef. rewrite Ec in Ef. destruct (chain_exec _ _ _ _ _ _ _) as [exec tms].
    destruct (parent_bound_range g sd (Some st) apt n Hapt Hst) as [Hb _].
    destruct team; [injection Ef as <- _ _; lia|]. destruct (validate _ _ _ _); [|discriminate]. injection Ef as <- _ _. exact Hst. }
  destruct (place_chain _ _ _ _ _ _) as [fin sd1] eqn:Ep. apply place_chain_le in Ep; [|exact Hst0].
  destruct (update_timeline _ _ _ _) as [s1|] eqn:Eu; [|discriminate]. intros [= _ <-] x Hx.
  apply (update_timeline_times _ _ _ _ _ _ Eu) in Hx as [->|[->|Hx]]; [apply set_time_range|exact Ep|apply Hs; exact Hx].
Qed.
Lemma momentum_init_le p : times_le (momentum_init p).
Proof.
  intros x Hx. unfold momentum_init in Hx. simpl in Hx. unfold all_times in Hx.
  rewrite map_map in Hx. simpl in Hx. apply in_concat in Hx as (l & Hl & Hx).
  apply in_map_iff in Hl as (y & <- & _). destruct Hx as [<-|[]]. inf. lia.
Qed.

(** ** The loop *)
Section Loop.
  Variables (g : graph) (est : nat -> list worker -> Z) (names : list nat) (cs : list contractor) (nodes : list nat)
            (ch : chromosome) (apt : Z) (bcs : list contractor).
  Hypothesis Hcs : contractors_ok cs.
  Hypothesis Hest : estimator_ok est.
  Hypothesis Hreqs : forall n, reqs_ok (reqs_of g n).
  Hypothesis Hvol : forall n, 0 <= volume_of g n.
  Hypothesis Hapt : 0 <= apt <= TIME_INF.
  Hypothesis Hnames : NoDup names.
  Hypothesis Hch : chromosome_ok ch.
  Hypothesis Hbcs : with_borders names ch 0 cs = Some bcs.
  Let staff (n : nat) (w : swork) : Prop := gene_team g names cs nodes ch n (sw_team w) (sw_contractor w).
  Let inv chains sd s h := tinv g (pool_of bcs) staff (ch_spec ch) chains sd s h /\ times_le s.
  Let loop := serial_loop g est names cs nodes ch apt.

  Lemma serial_step_inv first w n chains sd s h sd' s' c :
    inv chains sd s h -> (first = true -> sd = []) ->
    Z.of_nat (length chains) < TIME_INF ->
    nth_error nodes w = Some n ->
    chain_of g n = Some c -> NoDup (concat (chains ++ [c])) ->
    (forall e, In e (g_edges g) -> In (e_from e) (concat (chains ++ [c])) -> In (e_to e) (concat (chains ++ [c])) ->
       comes_before (concat (chains ++ [c])) (e_from e) (e_to e)) ->
    serial_step g est names cs nodes ch apt first w sd s = Some (sd', s') ->
    exists h', inv (chains ++ [c]) sd' s' h'.
  Proof.
    intros [HI Hle] Hf Hlen Hn Hc Hnd Htopo H. unfold serial_step in H. rewrite Hn in H.
    destruct (nth_error (ch_rows ch) w) as [[amounts ci]|] eqn:Er; [|discriminate].
    destruct (nth_error cs ci) as [ct|] eqn:Ec; [|discriminate].
    destruct (serial_team names ct amounts (reqs_of g n)) as [t0|] eqn:Et; [|discriminate].
    destruct (apply_spec _ _ t0) as [team|] eqn:Ea; [|discriminate].
    destruct (momentum_find _ _ _ _ _ _ _ _ _) as [[[st ft] times]|] eqn:Ef; [|discriminate].
    assert (Hg := serial_gene_team g names cs nodes ch Hch w n amounts ci ct t0 team Hn Er Ec Et Ea).
    assert (HF := gene_team_shape g names cs nodes ch Hch n team (ct_id ct) (Hreqs n) Hg).
    destruct (team_shape _ _ _ (proj1 (Hreqs n)) HF) as [Etm Htok].
    set (t := team_of_contractor (ct_id ct) (combine (map r_kind (reqs_of g n)) (map w_count team))) in *.
    rewrite Etm in H, Ef.
    assert (Hst : parent_bound g sd None apt n <= st <= TIME_INF) by (eapply momentum_find_le; eauto).
    assert (Hst2 : parent_bound g sd None apt n <= (if first then apt else st) <= TIME_INF).
    { destruct first; [|exact Hst]. rewrite (Hf eq_refl). unfold parent_bound. rewrite min_start_nil, tmax_spec. lia. }
    destruct Hch as (_ & _ & Hsp).
    assert (HP : exists h', tinv g (pool_of bcs) staff (ch_spec ch) (chains ++ [c]) sd' s' h').
    2: { destruct HP as [h' HP]. exists h'. split; [exact HP|]. eapply momentum_schedule_le; [exact Hle| |exact Hapt|exact H]. apply Hst2. }
    eapply (place_inv g est (pool_of bcs)); [exact Hest|exact Hvol|apply Hsp|exact Hapt|exact HI|exact Hlen|exact Hc|exact Hnd|exact Htopo|exact Htok|exact Hst2| |exact H].
    intros x Hx1 Hx2. unfold staff. rewrite Hx1, Hx2, <- Etm. exact Hg.
  Qed.

  Lemma serial_loop_inv : forall order heads first chains rest sd s h sd' s',
    inv chains sd s h -> (first = true -> sd = []) ->
    Forall2 (fun w n => nth_error nodes w = Some n) order heads -> chains_of g heads = Some rest ->
    Z.of_nat (length (chains ++ rest)) < TIME_INF ->
    NoDup (concat (chains ++ rest)) ->
    (forall e, In e (g_edges g) -> In (e_from e) (concat (chains ++ rest)) -> In (e_to e) (concat (chains ++ rest)) ->
       comes_before (concat (chains ++ rest)) (e_from e) (e_to e)) ->
    loop first order sd s = Some (sd', s') ->
    exists h', inv (chains ++ rest) sd' s' h'.
  Proof.
    induction order as [|w order IH]; intros heads first chains rest sd s h sd' s' HI Hf Ho Hc Hlen Hnd Htopo H.
    - inversion Ho; subst. simpl in Hc. injection Hc as <-. rewrite app_nil_r. simpl in H. injection H as <- <-. eauto.
    - inversion Ho as [|? n ? heads' Hn Ho']; subst. cbn [chains_of] in Hc. destruct (chain_of g n) as [c|] eqn:Ec; [|discriminate].
      destruct (chains_of g heads') as [rest'|] eqn:Er; [|discriminate]. injection Hc as <-.
      unfold loop in H. cbn [serial_loop] in H. fold loop in H.
      destruct (serial_step _ _ _ _ _ _ _ _ _ _ _) as [[sd1 s1]|] eqn:Es; [|discriminate].
      assert (Eapp : chains ++ c :: rest' = (chains ++ [c]) ++ rest') by (rewrite <- app_assoc; reflexivity).
      rewrite Eapp in *. rewrite concat_app in Hnd, Htopo.
      assert (Hs : exists h1, inv (chains ++ [c]) sd1 s1 h1);
        [eapply serial_step_inv; [exact HI|exact Hf| |exact Hn|exact Ec| | |exact Es]|destruct Hs as [h1 HI1]].
      { rewrite !app_length in Hlen. simpl in Hlen. lia. }
      { eapply nodup_app_l. exact Hnd. }
      { intros e He H1 H2. eapply comes_before_prefix; [exact Hnd| |exact H2].
        apply Htopo; [exact He|apply in_or_app; left; exact H1|apply in_or_app; left; exact H2]. }
      apply (IH heads' false (chains ++ [c]) rest' sd1 s1 h1 sd' s'); auto.
      + discriminate.
      + rewrite concat_app. exact Hnd.
      + rewrite concat_app. exact Htopo.
  Qed.

  Lemma serial_init : inv [] [] (momentum_init (pool_of bcs)) [].
  Proof.
    split; [|apply momentum_init_le]. constructor; simpl; try reflexivity; try lia; try (intros; contradiction).
    apply momentum_init_inv. apply pool_of_ok. eapply bordered_ok; eauto.
  Qed.

  (** ** No errors *)
  Variables (D Lg : Z).
  Hypothesis HD : 0 <= D.
  Hypothesis HED : forall n c m team cid, chain_of g n = Some c -> In m c -> gene_team g names cs nodes ch n team cid -> est m team <= D.
  Hypothesis HL : 0 <= Lg /\ forall e, In e (g_edges g) -> e_lag e <= Lg.
  Hypothesis Hservice : forall n, u_service (g_unit g n) = true -> reqs_of g n = [].
  Hypothesis Hshare : forall n c m, chain_of g n = Some c -> In m c ->
    map r_kind (reqs_of g m) = map r_kind (reqs_of g n).
  Hypothesis Hnotime : forall n, sp_time (ch_spec ch n) = None.
  Let HDt : 0 <= D /\ True := conj HD I.
  Local Notation below := (mv_below apt).

  (** The row of every work of the order names a contractor that has the required kinds
      and, as the border says, enough of them. *)
  Definition row_fits (w n : nat) : Prop :=
    exists amounts ci c, nth_error (ch_rows ch) w = Some (amounts, ci) /\ nth_error cs ci = Some c /\
      (length (sp_workers (ch_spec ch n)) = length (reqs_of g n) ->
         forall r, In r (reqs_of g n) -> In (r_kind r) (map fst (sp_workers (ch_spec ch n)))) /\
      forall r, In r (reqs_of g n) ->
        In (r_kind r) (map fst (ct_workers c)) /\
        exists j m b, nth_error names j = Some (r_kind r) /\ nth_error amounts j = Some m /\
          border_at names ch ci (r_kind r) = Some b /\ m <= b /\
          forall m', spec_count (ch_spec ch n) (reqs_of g n) (r_kind r) m' -> m' <= b.

  Lemma row_fits_team w n : nth_error nodes w = Some n -> row_fits w n ->
    exists amounts ci c t0 team, nth_error (ch_rows ch) w = Some (amounts, ci) /\ nth_error cs ci = Some c /\
      serial_team names c amounts (reqs_of g n) = Some t0 /\
      apply_spec (sp_workers (ch_spec ch n)) (reqs_of g n) t0 = Some team /\
      gene_team g names cs nodes ch n team (ct_id c) /\
      mv_team_good g est (pool_of bcs) D (ct_id c) n
        (team_of_contractor (ct_id c) (combine (map r_kind (reqs_of g n)) (map w_count team))) /\
      team = to_workers (team_of_contractor (ct_id c) (combine (map r_kind (reqs_of g n)) (map w_count team))).
  Proof.
    intros Hn (amounts & ci & c & Hr & Hc & Hfull & Hfit). exists amounts, ci, c.
    destruct (map_opt_total (fun r => match assoc_get (ct_workers c) (r_kind r), index_of names (r_kind r) with
        | Some _, Some i => match nth_error amounts i with Some n => Some (Wk (ct_id c) (r_kind r) n) | None => None end
        | _, _ => None end) (reqs_of g n)) as [t0 Ht0].
    { intros r Hin. destruct (Hfit r Hin) as (F1 & j & m & b & F2 & F3 & _). apply assoc_get_some in F1 as [a ->].
      rewrite (nth_index_of _ _ _ Hnames F2), F3. eauto. }
    fold (serial_team names c amounts (reqs_of g n)) in Ht0.
    assert (Hk : forall k, In k t0 -> exists r, In r (reqs_of g n) /\ w_kind k = r_kind r).
    { intros k Hk. apply map_opt_forall2 in Ht0. clear -Ht0 Hk. revert Ht0. generalize (reqs_of g n) as l. intros l HF.
      induction HF as [|r y l t H _ IH]; [destruct Hk|]. destruct Hk as [<-|Hk].
      - exists r. split; [left; reflexivity|]. destruct (assoc_get _ _); [|discriminate]. destruct (index_of _ _); [|discriminate].
        destruct (nth_error _ _); [|discriminate]. injection H as <-. reflexivity.
      - destruct (IH Hk) as (r' & ? & ?). exists r'. split; [right; assumption|assumption]. }
    assert (Hsome : exists team, apply_spec (sp_workers (ch_spec ch n)) (reqs_of g n) t0 = Some team).
    { apply map_opt_total. intros k Hin. destruct (existsb _ _); [|eauto].
      destruct (Nat.eqb_spec (length (sp_workers (ch_spec ch n))) (length (reqs_of g n))) as [El|El]; [|eauto].
      destruct (Hk k Hin) as (r & Hr1 & Hr2). destruct (assoc_get_some _ _ (Hfull El r Hr1)) as [a Ha].
      rewrite Hr2, Ha. eauto. }
    destruct Hsome as [team Hteam]. exists t0, team.
    assert (Hg := serial_gene_team g names cs nodes ch Hch w n amounts ci c t0 team Hn Hr Hc Ht0 Hteam).
    assert (HF := gene_team_shape g names cs nodes ch Hch n team (ct_id c) (Hreqs n) Hg).
    destruct (team_shape _ _ _ (proj1 (Hreqs n)) HF) as [Etm Htok].
    repeat (split; [assumption|]). split; [|exact Etm]. split.
    - intros ch0 Hch0 m Hm. rewrite <- Etm. eapply HED; eauto.
    - exists (map w_count team). split; [reflexivity|]. split; [rewrite map_length; symmetry; eapply Forall2_len; eauto|].
      split; [exact Htok|]. intros k m Hin.
      assert (Hex : exists r x, In r (reqs_of g n) /\ k = r_kind r /\ m = w_count x /\
         gene_count names (ch_spec ch n) (reqs_of g n) amounts (r_kind r) (w_count x)).
      { assert (HG := serial_counts g names ch Hch n amounts c t0 team Ht0 Hteam).
        clear -HG Hin. revert HG Hin. generalize (reqs_of g n) at 2 3 4 as l. intros l HG Hin.
        induction HG as [|r y l tm (_ & _ & _ & Q) _ IH]; [destruct Hin|]. simpl in Hin. destruct Hin as [[= <- <-]|Hin].
        - exists r, y. repeat split; auto. left. reflexivity.
        - destruct (IH Hin) as (r' & x & ? & ? & ? & ?). exists r', x. repeat split; auto. right. assumption. }
      destruct Hex as (r & x & Hr1 & -> & -> & Hgc). destruct (Hfit r Hr1) as (F1 & j & m & b & F2 & F3 & F4 & F5 & F6).
      exists b. split; [eapply bordered_capacity; eauto|].
      destruct Hgc as [Hs|(_ & j' & J1 & J2)]; [apply F6; exact Hs|].
      apply nth_index_of in J1; [|exact Hnames]. apply nth_index_of in F2; [|exact Hnames]. congruence.
  Qed.

  Lemma serial_step_safe B first w n sd s h c : minv (pool_of bcs) h s -> m_index s < TIME_INF -> below B sd s ->
    (first = true -> sd = [] /\ h = []) -> nth_error nodes w = Some n -> row_fits w n ->
    chain_of g n = Some c -> 2 * (B + Lg) + Z.of_nat (length c) * D < TIME_INF ->
    exists sd' s', serial_step g est names cs nodes ch apt first w sd s = Some (sd', s') /\
      below (B + Lg + Z.of_nat (length c) * D) sd' s'.
  Proof.
    intros Hm Hidx HB Hfirst Hn Hrow Hc Hinf.
    destruct (row_fits_team w n Hn Hrow) as (amounts & ci & ct & t0 & team & R1 & R2 & R3 & R4 & R5 & R6 & R7).
    set (t := team_of_contractor (ct_id ct) (combine (map r_kind (reqs_of g n)) (map w_count team))) in *.
    unfold serial_step. rewrite Hn, R1, R2, R3, R4, R7.
    assert (HB0 : apt <= B) by exact (proj1 HB). assert (HL0 := proj1 HL).
    destruct (mv_find_ok g est (pool_of bcs) apt D Lg Hest Hreqs Hapt HDt HL Hservice Hshare B sd s h (ct_id ct) n t c
      (sp_independent (ch_spec ch n)) Hm HB R6 Hc Hinf) as (st & ft & times & F1 & F2 & F3 & F4).
    rewrite F1.
    assert (H1 : parent_bound g sd None apt n <= (if first then apt else st) <= B + Lg /\
        (t = [] \/ team_fits (pool_of bcs) h t (if first then apt else st)
           (mv_cfin g est apt sd (to_workers t) (parent_bound g sd None apt n) c - parent_bound g sd None apt n))).
    { destruct first; [|auto]. destruct (Hfirst eq_refl) as [-> ->]. split.
      - unfold parent_bound. rewrite min_start_nil, tmax_spec. lia.
      - right. intros a m Hin. destruct R6 as (_ & counts & Et & _ & _ & Hcap). rewrite Et in Hin.
        apply in_map_iff in Hin as ([k m'] & [= <- ->] & Hin). destruct (Hcap k m Hin) as (cap & C1 & C2).
        exists cap. split; [exact C1|]. intros x _. simpl. lia. }
    destruct H1 as [H1 H2].
    exact (mv_schedule_ok g est (pool_of bcs) apt D Lg Hest Hreqs Hapt HDt HL Hservice Hshare B sd s h (ct_id ct) n t c
      (ch_spec ch n) _ Hm Hidx HB R6 Hc Hinf (Hnotime n) H1 H2).
  Qed.

  Lemma serial_loop_safe : forall order heads first chains rest sd s h,
    inv chains sd s h -> (first = true -> sd = [] /\ h = []) ->
    below (apt + Z.of_nat (length (concat chains)) * (D + Lg)) sd s ->
    Forall2 (fun w n => nth_error nodes w = Some n) order heads -> Forall2 row_fits order heads ->
    chains_of g heads = Some rest ->
    Z.of_nat (length (chains ++ rest)) < TIME_INF ->
    2 * (apt + Z.of_nat (length (concat (chains ++ rest))) * (D + Lg)) < TIME_INF ->
    NoDup (concat (chains ++ rest)) ->
    (forall e, In e (g_edges g) -> In (e_from e) (concat (chains ++ rest)) -> In (e_to e) (concat (chains ++ rest)) ->
       comes_before (concat (chains ++ rest)) (e_from e) (e_to e)) ->
    exists r, loop first order sd s = Some r.
  Proof.
    induction order as [|w order IH]; intros heads first chains rest sd s h HI Hf HB Ho Hrf Hc Hlen Hinf Hnd Htopo.
    { eexists. reflexivity. }
    inversion Ho as [|? n ? heads' Hn Ho']; subst. inversion Hrf as [|? ? ? ? Hr Hrf']; subst.
    cbn [chains_of] in Hc. destruct (chain_of g n) as [c|] eqn:Ec; [|discriminate].
    destruct (chains_of g heads') as [rest'|] eqn:Er; [|discriminate]. injection Hc as <-.
    unfold loop. cbn [serial_loop]. fold loop.
    assert (Eapp : chains ++ c :: rest' = (chains ++ [c]) ++ rest') by (rewrite <- app_assoc; reflexivity).
    rewrite Eapp in *.
    assert (Hcat : length (concat (chains ++ [c])) = (length (concat chains) + length c)%nat).
    { rewrite concat_app, app_length. simpl. rewrite app_nil_r. reflexivity. }
    assert (HL0 := proj1 HL).
    assert (Hle : Z.of_nat (length (concat (chains ++ [c]))) <= Z.of_nat (length (concat ((chains ++ [c]) ++ rest')))).
    { rewrite (concat_app (chains ++ [c])), app_length. lia. }
    assert (Hlc : (1 <= length c)%nat) by (destruct (chain_head _ _ _ Ec) as [r ->]; simpl; lia).
    destruct (serial_step_safe (apt + Z.of_nat (length (concat chains)) * (D + Lg)) first w n sd s h c) as (sd1 & s1 & S1 & S2); auto.
    { apply (i_minv _ _ _ _ _ _ _ _ (proj1 HI)). }
    { assert (Hx := i_idx _ _ _ _ _ _ _ _ (proj1 HI)). rewrite !app_length in Hlen. simpl in Hlen. lia. }
    { rewrite Hcat in Hle. nia. }
    rewrite S1.
    assert (HI1 : exists h1, inv (chains ++ [c]) sd1 s1 h1).
    { eapply serial_step_inv; [exact HI| | |exact Hn|exact Ec| | |exact S1].
      - intros E; apply Hf in E; tauto.
      - rewrite !app_length in Hlen. simpl in Hlen. lia.
      - rewrite concat_app in Hnd. eapply nodup_app_l. exact Hnd.
      - intros e He H1 H2. rewrite concat_app in Hnd, Htopo. eapply comes_before_prefix; [exact Hnd| |exact H2].
        apply Htopo; [exact He|apply in_or_app; left; exact H1|apply in_or_app; left; exact H2]. }
    destruct HI1 as [h1 HI1].
    eapply (IH heads' false (chains ++ [c]) rest' sd1 s1 h1); eauto.
    - discriminate.
    - destruct S2 as (A1 & A2 & A3). split; [rewrite Hcat; nia|]. split.
      + intros m x Hx. apply A2 in Hx. rewrite Hcat. nia.
      + intros x Hx. apply A3 in Hx. rewrite Hcat. nia.
  Qed.
End Loop.

Lemma with_borders_total names ch : forall l ci,
  (forall i c k n, nth_error l i = Some c -> In (k, n) (ct_workers c) -> exists b, border_at names ch (ci + i) k = Some b) ->
  exists bl, with_borders names ch ci l = Some bl.
Proof.
  induction l as [|c l IH]; intros ci H; simpl; [eauto|].
  destruct (map_opt_total (fun kn : nat * Z => match border_at names ch ci (fst kn) with Some n => Some (fst kn, n) | None => None end) (ct_workers c)) as [ws ->].
  - intros [k n] Hin. destruct (H O c k n eq_refl Hin) as [b Hb]. rewrite Nat.add_0_r in Hb. simpl. rewrite Hb. eauto.
  - destruct (IH (S ci)) as [bl ->]; [|eauto]. intros i c' k n Hi Hin. destruct (H (S i) c' k n Hi Hin) as [b Hb].
    exists b. rewrite <- Hb. f_equal. lia.
Qed.

Lemma first_start_spec apt : forall sd found,
  let r := first_start apt sd found in
  (forall n w, In (n, w) sd -> sw_team w <> [] -> r <= sw_start w) /\
  (match found with Some t => r <= t | None => True end) /\
  ((exists n w, In (n, w) sd /\ sw_team w <> [] /\ r = sw_start w) \/
   found = Some r \/ (found = None /\ r = apt /\ forall n w, In (n, w) sd -> sw_team w = [])).
Proof.
  induction sd as [|[m v] sd IH]; intros found; cbv zeta; simpl.
  - split; [intros n w []|]. destruct found; split; auto; try lia. right. right. repeat split; auto. intros n w [].
  - destruct (sw_team v) as [|k l] eqn:Ev.
    + destruct (IH found) as (A1 & A2 & A3). split; [|split; [exact A2|]].
      * intros n w [[= <- <-]|Hin] Hne; [congruence|eauto].
      * destruct A3 as [(n & w & A3 & A4)|[A3|(A3 & A4 & A5)]]; [left; exists n, w; auto|auto|].
        right. right. repeat split; auto. intros n w [[= <- <-]|Hin]; eauto.
    + destruct (IH (Some (match found with Some t => if sw_start v <? t then sw_start v else t | None => sw_start v end))) as (A1 & A2 & A3).
      set (r := first_start _ _ _) in *.
      assert (Hv : r <= sw_start v) by (destruct found as [t|]; [destruct (Z.ltb_spec (sw_start v) t)|]; lia).
      split; [|split].
      * intros n w [[= <- <-]|Hin] Hne; [exact Hv|eauto].
      * destruct found as [t|]; [destruct (Z.ltb_spec (sw_start v) t); lia|exact I].
      * destruct A3 as [(n & w & A3 & A4)|[A3|(A3 & _)]]; [left; exists n, w; auto| |discriminate].
        injection A3 as A3. destruct found as [t|].
        -- destruct (Z.ltb_spec (sw_start v) t); [left; exists m, v; repeat split; auto; congruence|right; left; congruence].
        -- left. exists m, v. repeat split; auto. congruence.
Qed.

Lemma serial_decode_feasible : forall g est names cs nodes ch apt heads chains sd start,
    contractors_ok cs -> estimator_ok est -> NoDup names -> chromosome_ok ch ->
    (forall n, reqs_ok (reqs_of g n)) -> (forall n, 0 <= volume_of g n) ->
    0 <= apt <= TIME_INF ->
    Forall2 (fun w n => nth_error nodes w = Some n) (ch_order ch) heads ->
    chains_of g heads = Some chains -> NoDup (concat chains) -> Z.of_nat (length heads) < TIME_INF ->
    (forall e, In e (g_edges g) -> In (e_from e) (concat chains) -> In (e_to e) (concat chains) ->
       comes_before (concat chains) (e_from e) (e_to e)) ->
    serial_decode g est names cs nodes ch apt = Some (sd, start) ->
    map fst sd = rev (concat chains) /\
    (forall n w, In (n, w) sd -> 0 <= sw_start w <= sw_finish w /\ sw_finish w <= TIME_INF) /\
    (forall e wu wv, In e (g_edges g) -> In (e_from e, wu) sd -> In (e_to e, wv) sd ->
       ~ same_chain chains (e_from e) (e_to e) -> not_pinned (ch_spec ch) chains (e_to e) ->
       tadd (sw_finish wu) (e_lag e) <= sw_start wv) /\
    (forall c u v wu wv, In c chains -> comes_before c u v -> In (u, wu) sd -> In (v, wv) sd ->
       sw_finish wu <= sw_start wv /\ sw_team wu = sw_team wv /\ sw_contractor wu = sw_contractor wv) /\
    (forall hd r n w, In (hd :: r) chains -> In n (hd :: r) -> In (n, w) sd ->
       gene_team g names cs nodes ch hd (sw_team w) (sw_contractor w)) /\
    (forall ci c k a b t, nth_error cs ci = Some c -> In (k, a) (ct_workers c) -> border_for names (ch_borders ch) ci k b ->
       busy (schedule_bookings sd) (ct_id c, k) t <= b) /\
    (forall n w, In (n, w) sd -> sw_team w <> [] -> start <= sw_start w) /\
    ((exists n w, In (n, w) sd /\ sw_team w <> [] /\ start = sw_start w) \/
     (start = apt /\ forall n w, In (n, w) sd -> sw_team w = [])).
Proof.
  intros g est names cs nodes ch apt heads chains sd start Hcs Hest Hnm Hch Hreqs Hvol Hapt Ho Hc Hnd Hlen Htopo H.
  unfold serial_decode in H. destruct (with_borders names ch 0 cs) as [bcs|] eqn:Eb; [|discriminate].
  destruct (serial_loop _ _ _ _ _ _ _ _ _ _ _) as [[sd' s']|] eqn:El; [|discriminate]. injection H as <- <-.
  destruct (serial_loop_inv g est names cs nodes ch apt bcs Hest Hreqs Hvol Hapt Hch
    (ch_order ch) heads true [] chains [] (momentum_init (pool_of bcs)) [] sd' s') as [h [[K M X L T TM P C] _]]; auto.
  { eapply serial_init; eauto. }
  { simpl. rewrite (chains_of_length _ _ _ Hc). exact Hlen. }
  simpl in *. do 5 (split; [assumption|]). split.
  - intros ci c k a b t Hci Hin Hb. apply (border_for_at _ _ _ _ _ Hnm) in Hb.
    assert (Hk : In k (map fst (ct_workers c))) by (apply in_map_iff; exists (k, a); auto).
    assert (Hcap := bordered_capacity names ch cs Hcs Hch bcs ci c k b Eb Hci Hk Hb).
    destruct (Z.ltb_spec t 0).
    + rewrite busy_before_zero; [|intros m w Hm; apply (T m w Hm)|assumption].
      apply border_at_for in Hb as (row & j & E1 & E2 & E3). destruct Hch as (_ & Hbb & _).
      eapply Hbb; eapply nth_error_In; eauto.
    + eapply Z.le_trans; [apply L|]. eapply minv_busy_le; eauto.
  - destruct (first_start_spec apt sd' None) as (A1 & _ & A3). split; [exact A1|].
    destruct A3 as [A3|[A3|(_ & A4 & A5)]]; [left; exact A3|discriminate|right; auto].
Qed.
