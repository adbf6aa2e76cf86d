(** Properties C55, C56, C57: decoding and encoding of chromosomes, serial scheme.
    Vocabulary: [SgsSpec], [ScheduleSpec], [GeneticResTheorems]. *)
From Coq Require Import ZArith List Bool Lia Arith ZifyBool ZifyNat.
From Verif Require Import TimeModel MomentumModel JITModel MomentumSpec MomentumHistory MomentumTeamProofs
  GraphModel ScheduleModel ScheduleSpec TeamProofs ScheduleInv SchedulePoolProofs ScheduleSafe ScheduleTheorems
  GeneticResModel GeneticResTheorems SgsModel SgsSpec SgsSerial SgsRound.
Import ListNotations.
Local Open Scope Z_scope.

(** C55. [heads] are the works of the order, [chains] their inseparable chains; the order
    is topological. Nothing is assumed about the amounts except that they are not
    negative. *)
Theorem serial_decoding_feasible :
  forall g est names cs nodes ch apt heads chains sd start,
    contractors_ok cs -> estimator_ok est -> NoDup names -> chromosome_ok ch ->
    (forall n, reqs_ok (u_reqs (g_unit g n))) -> (forall n, 0 <= u_volume (g_unit g n)) ->
    0 <= apt <= TIME_INF ->
    Forall2 (fun w n => nth_error nodes w = Some n) (ch_order ch) heads ->
    chains_of g heads = Some chains -> NoDup (concat chains) -> Z.of_nat (length heads) < TIME_INF ->
    (forall e, In e (g_edges g) -> In (e_from e) (concat chains) -> In (e_to e) (concat chains) ->
       comes_before (concat chains) (e_from e) (e_to e)) ->
    serial_decode g est names cs nodes ch apt = Some (sd, start) ->
    (* every work once, in this order *)
    map fst sd = rev (concat chains) /\
    (* proper intervals *)
    (forall n w, In (n, w) sd -> 0 <= sw_start w <= sw_finish w /\ sw_finish w <= TIME_INF) /\
    (* predecessors outside the chain *)
    (forall e wu wv, In e (g_edges g) -> In (e_from e, wu) sd -> In (e_to e, wv) sd ->
       ~ same_chain chains (e_from e) (e_to e) -> not_pinned (ch_spec ch) chains (e_to e) ->
       tadd (sw_finish wu) (e_lag e) <= sw_start wv) /\
    (* chains *)
    (forall c u v wu wv, In c chains -> comes_before c u v -> In (u, wu) sd -> In (v, wv) sd ->
       sw_finish wu <= sw_start wv /\ sw_team wu = sw_team wv /\ sw_contractor wu = sw_contractor wv) /\
    (* teams as the chromosome and the specification say *)
    (forall hd r n w, In (hd :: r) chains -> In n (hd :: r) -> In (n, w) sd ->
       gene_team g names cs nodes ch hd (sw_team w) (sw_contractor w)) /\
    (* never more workers than the border *)
    (forall ci c k a b t, nth_error cs ci = Some c -> In (k, a) (ct_workers c) -> border_for names (ch_borders ch) ci k b ->
       busy (schedule_bookings sd) (ct_id c, k) t <= b) /\
    (* the start of the schedule *)
    (forall n w, In (n, w) sd -> sw_team w <> [] -> start <= sw_start w) /\
    ((exists n w, In (n, w) sd /\ sw_team w <> [] /\ start = sw_start w) \/
     (start = apt /\ forall n w, In (n, w) sd -> sw_team w = [])).
Proof. exact serial_decode_feasible. Qed.
Print Assumptions serial_decoding_feasible.

(** C56. The rows are valid in the sense that the genetic operators keep (C28); the
    contractors available for a work have the required kinds; the counts that the
    specification names are within the borders. *)
Theorem serial_decoding_succeeds :
  forall g est names cs nodes ch apt lows ups avail heads chains D Lg,
    contractors_ok cs -> estimator_ok est -> NoDup names -> chromosome_ok ch ->
    (forall n, reqs_ok (u_reqs (g_unit g n))) -> (forall n, 0 <= u_volume (g_unit g n)) ->
    0 <= apt <= TIME_INF ->
    rows_valid lows ups avail (ch_borders ch) (ch_rows ch) ->
    shaped (length names) (ch_borders ch) -> length (ch_borders ch) = length cs ->
    (forall c k n, In c cs -> In (k, n) (ct_workers c) -> In k names) ->
    Forall2 (fun w n => nth_error nodes w = Some n) (ch_order ch) heads ->
    (forall w, In w (ch_order ch) -> (w < length (ch_rows ch))%nat) ->
    (forall w n ci c r, nth_error nodes w = Some n -> In ci (avail w) -> nth_error cs ci = Some c ->
       In r (u_reqs (g_unit g n)) -> In (r_kind r) (map fst (ct_workers c))) ->
    (forall n, length (sp_workers (ch_spec ch n)) = length (u_reqs (g_unit g n)) ->
       forall r, In r (u_reqs (g_unit g n)) -> In (r_kind r) (map fst (sp_workers (ch_spec ch n)))) ->
    (forall n amounts ci k m b, gene nodes ch n amounts ci -> spec_count (ch_spec ch n) (u_reqs (g_unit g n)) k m ->
       border_for names (ch_borders ch) ci k b -> m <= b) ->
    (forall n, sp_time (ch_spec ch n) = None) ->
    chains_of g heads = Some chains -> NoDup (concat chains) -> Z.of_nat (length heads) < TIME_INF ->
    (forall e, In e (g_edges g) -> In (e_from e) (concat chains) -> In (e_to e) (concat chains) ->
       comes_before (concat chains) (e_from e) (e_to e)) ->
    0 <= D -> (forall n c m team cid, chain_of g n = Some c -> In m c -> gene_team g names cs nodes ch n team cid -> est m team <= D) ->
    (0 <= Lg /\ forall e, In e (g_edges g) -> e_lag e <= Lg) ->
    2 * (apt + Z.of_nat (length (concat chains)) * (D + Lg)) < TIME_INF ->
    (forall n, u_service (g_unit g n) = true -> u_reqs (g_unit g n) = []) ->
    (forall n c m, chain_of g n = Some c -> In m c ->
       map r_kind (u_reqs (g_unit g m)) = map r_kind (u_reqs (g_unit g n))) ->
    exists sd start, serial_decode g est names cs nodes ch apt = Some (sd, start).
Proof.
  intros g est names cs nodes ch apt lows ups avail heads chains D Lg Hcs Hest Hnm Hch Hreqs Hvol Hapt Hrv Hsh Hlb Hkn Ho Hrows
    Hav Hsf Hsb Hnt Hc Hnd Hlen Htopo HD HED HL Hinf Hsv Hshare.
  assert (Hborder : forall ci c k n, nth_error cs ci = Some c -> In (k, n) (ct_workers c) -> exists b, border_at names ch ci k = Some b).
  { intros ci c k n Hci Hin. assert (Hk := Hkn c k n (nth_error_In _ _ Hci) Hin).
    assert (Hlt : (ci < length (ch_borders ch))%nat) by (rewrite Hlb; apply nth_error_Some; congruence).
    unfold border_at. destruct (nth_error (ch_borders ch) ci) as [row|] eqn:Er; [|apply nth_error_None in Er; lia].
    destruct (index_of_in _ _ Hk) as [j Hj]. rewrite Hj. apply nth_error_In, Hsh in Er.
    destruct (nth_error row j) as [b|] eqn:Eb; [eauto|]. apply nth_error_None in Eb.
    assert (j < length names)%nat by (eapply index_of_length; eauto). lia. }
  destruct (with_borders_total names ch cs 0) as [bcs Hbcs].
  { intros i c k n Hi Hin. exact (Hborder i c k n Hi Hin). }
  assert (Hfits : Forall2 (row_fits g names cs ch) (ch_order ch) heads).
  { assert (Hall : forall w n, In w (ch_order ch) -> nth_error nodes w = Some n -> row_fits g names cs ch w n).
    { intros w n Hw Hn. destruct (nth_error (ch_rows ch) w) as [[amounts ci]|] eqn:Er; [|apply nth_error_None in Er; specialize (Hrows w Hw); lia].
      destruct (Hrv w _ Er) as (V1 & V2 & V3 & V4 & V5). cbn [fst snd] in *.
      destruct (nth_error cs ci) as [c|] eqn:Ec; [|apply nth_error_None in Ec; lia].
      exists amounts, ci, c. split; [exact Er|]. split; [exact Ec|]. split; [apply Hsf|].
      intros r Hr. assert (Hk := Hav w n ci c r Hn V3 Ec Hr). split; [exact Hk|].
      apply in_map_iff in Hk as ([k a] & Ek & Hin). simpl in Ek. subst k.
      destruct (Hborder ci c _ a Ec Hin) as [b Hb]. assert (Hbf := border_at_for _ _ _ _ _ Hb).
      destruct Hbf as (row & j & B1 & B2 & B3).
      assert (Erow : nth ci (ch_borders ch) [] = row) by (apply nth_error_nth; exact B1). rewrite Erow in V5.
      assert (Hle : exists m, nth_error amounts j = Some m /\ m <= b).
      { clear -V5 B3. revert j B3. induction V5 as [|x y l l' Hxy _ IH]; intros [|j] B3; simpl in *; try discriminate; [injection B3 as <-; eauto|auto]. }
      destruct Hle as (m & M1 & M2). exists j, m, b. repeat (split; [assumption|]).
      intros m' Hm'. eapply Hsb; [exists w; split; eassumption|exact Hm'|exists row, j; auto]. }
    clear -Ho Hall. induction Ho as [|w n ws ns Hn _ IH]; constructor; [apply Hall; [left; reflexivity|exact Hn]|].
    apply IH. intros; apply Hall; [right; assumption|assumption]. }
  destruct (serial_loop_safe g est names cs nodes ch apt bcs Hcs Hest Hreqs Hvol Hapt Hnm Hch Hbcs D Lg HD HED HL Hsv Hshare Hnt
    (ch_order ch) heads true [] chains [] (momentum_init (pool_of bcs)) []) as [[sd s] Hr]; auto.
  - eapply serial_init; eauto.
  - split; [simpl; lia|]. split; [intros n w []|]. intros x Hx. apply (Z.le_trans _ 0); [|simpl; lia].
    unfold momentum_init in Hx. simpl in Hx. unfold all_times in Hx.
    rewrite map_map in Hx. simpl in Hx. apply in_concat in Hx as (l & Hl & Hx).
    apply in_map_iff in Hl as (y & <- & _). destruct Hx as [<-|[]]. reflexivity.
  - simpl. rewrite (chains_of_length _ _ _ Hc). exact Hlen.
  - unfold serial_decode. rewrite Hbcs, Hr. eauto.
Qed.
Print Assumptions serial_decoding_succeeds.

(** C57. A schedule built by the list scheduler, encoded with borders equal to the
    workforces, is decoded to the same schedule; only the contractor recorded for works
    without workers may change. *)
Theorem encode_decode_round_trip :
  forall g est optimize names cs nodes borders spec apt heads chains sd s,
    contractors_ok cs -> estimator_ok est ->
    (forall n c sd s, optimizer_ok (optimize n c sd s)) ->
    (forall n, reqs_ok (u_reqs (g_unit g n))) -> (forall n, 0 <= u_volume (g_unit g n)) -> (forall n, spec_ok (spec n)) ->
    0 <= apt <= TIME_INF ->
    chains_of g heads = Some chains -> NoDup (concat chains) -> Z.of_nat (length heads) < TIME_INF ->
    (forall e, In e (g_edges g) -> In (e_from e) (concat chains) -> In (e_to e) (concat chains) ->
       comes_before (concat chains) (e_from e) (e_to e)) ->
    (* positions *)
    NoDup names -> (forall n r, In r (u_reqs (g_unit g n)) -> In (r_kind r) names) ->
    NoDup nodes -> incl heads nodes -> length nodes = length heads ->
    (* borders equal to the workforces *)
    (forall ci c k n, nth_error cs ci = Some c -> In (k, n) (ct_workers c) -> border_for names borders ci k n) ->
    (* the specification names known contractors and, when full, the required kinds *)
    (forall n id, In id (sp_contractors (spec n)) -> In id (map ct_id cs)) ->
    (forall n, length (sp_workers (spec n)) = length (u_reqs (g_unit g n)) ->
       forall r, In r (u_reqs (g_unit g n)) -> In (r_kind r) (map fst (sp_workers (spec n)))) ->
    cs <> [] ->
    momentum_build g est optimize cs spec apt heads = Done (sd, s) ->
    exists ch sd' start, encode names cs nodes borders spec sd heads = Some ch /\
      serial_decode g est names cs nodes ch apt = Some (sd', start) /\
      Forall2 same_but_idle sd sd'.
Proof.
  intros g est optimize names cs nodes borders spec apt heads chains sd s Hcs Hest Hopt Hreqs Hvol Hspec Hapt Hc Hnd Hlen Htopo
    Hnm Hkn Hndn Hincl Hln Hb Hids Hfull Hne H.
  assert (HndH : NoDup heads).
  { clear -Hc Hnd. revert chains Hc Hnd. induction heads as [|n heads IH]; intros chains Hc Hnd; [constructor|].
    cbn [chains_of] in Hc. destruct (chain_of g n) as [c|] eqn:Ec; [|discriminate].
    destruct (chains_of g heads) as [rest|] eqn:Er; [|discriminate]. injection Hc as <-. simpl in Hnd.
    assert (Hsub : forall h rest', chains_of g h = Some rest' -> incl h (concat rest')).
    { clear. induction h as [|m h IH]; intros rest' H x Hx; [destruct Hx|]. cbn [chains_of] in H.
      destruct (chain_of g m) as [c|] eqn:Ec; [|discriminate]. destruct (chains_of g h) as [r|] eqn:Er; [|discriminate].
      injection H as <-. simpl. apply in_or_app. destruct Hx as [<-|Hx].
      - left. destruct (chain_head _ _ _ Ec) as [q ->]. left. reflexivity.
      - right. eapply IH; eauto. }
    constructor.
    - intros Hin. eapply nodup_app_disj; [exact Hnd| |eapply Hsub; eauto]. destruct (chain_head _ _ _ Ec) as [q ->]. left. reflexivity.
    - eapply IH; eauto. eapply nodup_app_r. exact Hnd. }
  destruct (build_feasible g est optimize cs spec apt heads chains sd s Hcs Hest Hopt Hreqs Hvol Hspec Hapt Hc Hnd Hlen Htopo H)
    as (K & _ & _ & _ & ST & _).
  assert (HndK : NoDup (map fst sd)) by (rewrite K; apply NoDup_rev; exact Hnd).
  assert (Hrow : forall n, In n heads -> exists r, row_for names cs spec sd n r).
  { intros n Hn. assert (Hch : exists q, In (n :: q) chains).
    { clear -Hc Hn. revert chains Hc. induction heads as [|m heads IH]; intros chains Hc; [destruct Hn|].
      cbn [chains_of] in Hc. destruct (chain_of g m) as [c|] eqn:Ec; [|discriminate].
      destruct (chains_of g heads) as [rest|] eqn:Er; [|discriminate]. injection Hc as <-. destruct Hn as [->|Hn].
      - destruct (chain_head _ _ _ Ec) as [q ->]. exists q. left. reflexivity.
      - destruct (IH Hn rest eq_refl) as [q Hq]. exists q. right. exact Hq. }
    destruct Hch as [q Hq].
    assert (Hin : In n (map fst sd)) by (rewrite K; apply -> in_rev; apply in_concat; exists (n :: q); split; [exact Hq|left; reflexivity]).
    apply in_map_iff in Hin as ([m w] & Em & Hw). simpl in Em. subst m.
    destruct (ST n q n w Hq (or_introl eq_refl) Hw) as (ct & S1 & S2 & S3 & S4).
    apply (sd_get_in _ _ _ HndK) in Hw.
    assert (Henc : exists r, encode_row names cs (spec n) (sw_team w) (repeat 0 (length names), O) = Some r).
    { destruct (sw_team w) as [|k0 tm0] eqn:Etm.
      - unfold encode_row, encode_contractor.
        assert (Hhd : exists id, hd_error (match sp_contractors (spec n) with [] => map ct_id cs | l => l end) = Some id /\ In id (map ct_id cs)).
        { destruct (sp_contractors (spec n)) as [|id l] eqn:El.
          - destruct cs as [|c0 cs0]; [congruence|]. exists (ct_id c0). simpl. auto.
          - exists id. split; [reflexivity|]. apply (Hids n). rewrite El. left. reflexivity. }
        destruct Hhd as (id & Hh & Hid). destruct (match sp_contractors (spec n) with [] => _ | _ => _ end) as [|y l]; [discriminate|].
        injection Hh as ->. destruct (index_of_in _ _ Hid) as [ci Hci]. rewrite Hci. eauto.
      - rewrite <- Etm in *. destruct (index_of_in (map ct_id cs) (ct_id ct) (in_map ct_id _ _ S1)) as [ci Hci].
        destruct (encode_team_spec names cs (ct_id ct) ci Hci (sw_team w) (repeat 0 (length names)) O) as (l' & B1 & _).
        + apply repeat_length.
        + assert (E : map w_kind (sw_team w) = map r_kind (u_reqs (g_unit g n))).
          { clear -S4. induction S4 as [|r k l tm (_ & E & _) _ IH]; [reflexivity|]. simpl. congruence. }
          rewrite E. apply Hreqs.
        + intros k Hk. assert (Hr : exists r, In r (u_reqs (g_unit g n)) /\ w_kind k = r_kind r /\ w_contractor k = ct_id ct).
          { clear -S4 Hk. induction S4 as [|r x l tm (E1 & E2 & _) _ IH]; [destruct Hk|]. destruct Hk as [<-|Hk].
            - exists r. split; [left; reflexivity|auto].
            - destruct (IH Hk) as (r' & ? & ?). exists r'. split; [right; assumption|assumption]. }
          destruct Hr as (r & Hr1 & Hr2 & Hr3). split; [rewrite Hr2; eapply Hkn; eauto|exact Hr3].
        + exists (l', ci). unfold encode_row. rewrite Etm in *. exact B1. }
    destruct Henc as [r Hr]. exists r, w. auto. }
  destruct (encode_rows_spec names cs nodes spec sd heads (repeat (repeat 0 (length names), O) (length heads)) HndH) as (rows & R1 & R2 & _).
  { intros n Hn. destruct (index_of_in nodes n (Hincl n Hn)) as [i Hi]. exists i. split; [exact Hi|].
    apply nth_error_repeat. rewrite <- Hln. eapply index_of_length; eauto. }
  { exact Hrow. }
  destruct (map_opt_total (index_of nodes) heads) as [order Ho]; [intros n Hn; apply index_of_in; apply Hincl; exact Hn|].
  assert (HO : Forall2 (fun w n => nth_error nodes w = Some n /\ exists r, nth_error rows w = Some r /\ row_for names cs spec sd n r) order heads).
  { apply map_opt_forall2 in Ho. clear -Ho R2 Hndn. induction Ho as [|n w ns ws Hn _ IH]; constructor.
    - split; [apply index_of_nth; exact Hn|]. destruct (R2 n (or_introl eq_refl)) as (i & r & I1 & I2 & I3).
      rewrite Hn in I1. injection I1 as <-. eauto.
    - apply IH. intros m Hm. apply R2. right. exact Hm. }
  set (ch := Chr order rows borders spec).
  assert (Hbcs : with_borders names ch 0 cs = Some cs).
  { apply with_borders_full. intros i c k n Hi Hin. simpl. apply border_for_at; [exact Hnm|]. simpl. eapply Hb; eauto. }
  destruct (retrace g est optimize names cs nodes spec apt Hcs Hest Hopt Hreqs Hvol Hspec Hapt Hkn Hids ch (fun n => eq_refl) Hfull Hne
    sd heads order true [] chains [] (momentum_init (pool_of cs)) [] s []) as (sd' & D1 & D2); auto.
  - apply sinv_init. exact Hcs.
  - simpl. rewrite (chains_of_length _ _ _ Hc). exact Hlen.
  - constructor.
  - exists ch, sd', (first_start apt sd' None). split; [unfold encode; rewrite Ho, R1; reflexivity|]. split; [|exact D2].
    unfold serial_decode. rewrite Hbcs. cbn [ch_order]. change (ch_order ch) with order. rewrite D1. reflexivity.
Qed.
Print Assumptions encode_decode_round_trip.

(** A concrete case: the schedule [sx_result] of [ScheduleTheorems], encoded and decoded. *)
Definition sg_names : list nat := [0; 1]%nat.
Definition sg_borders : list (list Z) := [[3; 2]; [2; 1]].
Definition sg_nodes : list nat := [0; 3; 1; 4; 5]%nat.
Example sg_encoded :
  match sx_result with
  | Done (sd, _) => match encode sg_names sx_contractors sg_nodes sg_borders sx_spec sd sx_nodes with
                    | Some ch => (ch_order ch, ch_rows ch)
                    | None => ([], [])
                    end
  | _ => ([], [])
  end = ([0; 2; 1; 3; 4]%nat, [([0; 0], 0%nat); ([2; 0], 0%nat); ([1; 1], 1%nat); ([2; 1], 1%nat); ([0; 0], 0%nat)]).
Proof. vm_compute. reflexivity. Qed.
Definition sg_ch : chromosome :=
  Chr [0; 2; 1; 3; 4]%nat [([0; 0], 0%nat); ([2; 0], 0%nat); ([1; 1], 1%nat); ([2; 1], 1%nat); ([0; 0], 0%nat)] sg_borders sx_spec.
Example sg_decoded :
  match serial_decode sx_graph sx_est sg_names sx_contractors sg_nodes sg_ch 0 with
  | Some (sd, st) => (map (fun x => (fst x, sw_start (snd x), sw_finish (snd x), sw_contractor (snd x),
                                   map w_count (sw_team (snd x)))) (rev sd), st)
  | None => ([], 0)
  end
  = ([(0%nat, 0, 0, 0%nat, []); (1%nat, 0, 11, 1%nat, [1; 1]);
     (2%nat, 11, 23, 1%nat, [1; 1]); (3%nat, 2, 10, 0%nat, [2]);
     (4%nat, 23, 32, 1%nat, [2; 1]); (5%nat, 32, 32, 0%nat, [])], 0).
Proof. vm_compute. reflexivity. Qed.
(** The hypotheses of the three theorems that [sx_hypotheses] does not show. *)
Example sg_hypotheses :
  NoDup sg_names /\ chromosome_ok sg_ch /\
  Forall2 (fun w n => nth_error sg_nodes w = Some n) (ch_order sg_ch) sx_nodes /\
  rows_valid (fun _ => [0; 0]) (fun _ => [3; 2]) (fun _ => [0; 1]%nat) (ch_borders sg_ch) (ch_rows sg_ch) /\
  shaped (length sg_names) sg_borders /\ length sg_borders = length sx_contractors /\
  (forall c k n, In c sx_contractors -> In (k, n) (ct_workers c) -> In k sg_names) /\
  (forall w n ci c r, nth_error sg_nodes w = Some n -> In ci [0; 1]%nat -> nth_error sx_contractors ci = Some c ->
       In r (u_reqs (g_unit sx_graph n)) -> In (r_kind r) (map fst (ct_workers c))) /\
  (forall n r, In r (u_reqs (g_unit sx_graph n)) -> In (r_kind r) sg_names) /\
  NoDup sg_nodes /\ incl sx_nodes sg_nodes /\ length sg_nodes = length sx_nodes /\
  (forall ci c k n, nth_error sx_contractors ci = Some c -> In (k, n) (ct_workers c) -> border_for sg_names sg_borders ci k n) /\
  (forall n id, In id (sp_contractors (sx_spec n)) -> In id (map ct_id sx_contractors)).
Proof.
  assert (Hkk : forall n r, In r (u_reqs (g_unit sx_graph n)) -> In (r_kind r) sg_names).
  { intros [|[|[|[|[|n]]]]] r H; simpl in H; repeat destruct H as [<-|H]; try tauto; simpl; tauto. }
  repeat match goal with |- _ /\ _ => split end.
  - repeat constructor; simpl; intuition lia.
  - split; [|split].
    + intros am ci a H Ha. simpl in H. repeat destruct H as [[= <- <-]|H]; try tauto; simpl in Ha; repeat destruct Ha as [<-|Ha]; try tauto; lia.
    + intros row b H Hb. simpl in H. repeat destruct H as [<-|H]; try tauto; simpl in Hb; repeat destruct Hb as [<-|Hb]; try tauto; lia.
    + intros n. simpl. unfold sx_spec. destruct (Nat.eqb n 4); (split; [split; simpl; tauto|constructor]).
  - repeat constructor.
  - intros w r H. do 5 (destruct w as [|w]; [simpl in H; injection H as <-; unfold row_valid, within; simpl; repeat split; try lia; try tauto; repeat constructor; lia|]).
    simpl in H. destruct w; discriminate.
  - intros b [<-|[<-|[]]]; reflexivity.
  - reflexivity.
  - intros c k n [<-|[<-|[]]] H; simpl in H; repeat destruct H as [[= <- <-]|H]; try tauto; simpl; tauto.
  - intros w n ci c r _ _ Hc Hr. apply Hkk in Hr. destruct ci as [|[|ci]]; simpl in Hc; [| |destruct ci; discriminate]; injection Hc as <-; exact Hr.
  - exact Hkk.
  - repeat constructor; simpl; intuition lia.
  - intros x H. simpl in *. tauto.
  - reflexivity.
  - intros [|[|ci]] c k n Hc H; simpl in Hc; [| |destruct ci; discriminate]; injection Hc as <-; simpl in H;
      repeat destruct H as [[= <- <-]|H]; try tauto.
    + exists [3; 2], 0%nat. auto.
    + exists [3; 2], 1%nat. auto.
    + exists [2; 1], 0%nat. auto.
    + exists [2; 1], 1%nat. auto.
  - intros n id. unfold sx_spec. destruct (Nat.eqb n 4); simpl; tauto.
Qed.

(** Finding: the borders that the genetic scheduler starts from are misplaced when
    contractors list their kinds in different orders. Contractor 1 has one worker of kind 1,
    but its border for kind 1 is 5, and a chromosome within the borders is decoded to a
    schedule with three of them at work. *)
Theorem misplaced_borders_overbook :
  exists cs names borders g est nodes ch sd start,
    contractors_ok cs /\ names = worker_names cs /\ contractor_borders cs = Some borders /\
    ch_borders ch = borders /\ rows_valid (fun _ => [0; 0]) (fun _ => [9; 9]) (fun _ => [1%nat]) borders (ch_rows ch) /\
    serial_decode g est names cs nodes ch 0 = Some (sd, start) /\
    exists c k n t, In c cs /\ In (k, n) (ct_workers c) /\ n < busy (schedule_bookings sd) (ct_id c, k) t.
Proof.
  exists [Ct 0 [(0%nat, 1); (1%nat, 5)]; Ct 1 [(1%nat, 1); (0%nat, 5)]], [0; 1]%nat, [[1; 5]; [1; 5]],
    (Gr [] (fun _ => WU false [Req 1 1 1 9] 1)), (fun _ _ => 4), [0%nat],
    (Chr [0%nat] [([0; 3], 1%nat)] [[1; 5]; [1; 5]] (fun _ => WSpec [] [] None false)).
  eexists. eexists. split; [|split; [reflexivity|split; [reflexivity|split; [reflexivity|split; [|split; [vm_compute; reflexivity|]]]]]].
  - split; [repeat constructor; simpl; intuition lia|].
    intros c [<-|[<-|[]]]; simpl; (split; [repeat constructor; simpl; intuition lia|]); intros k n H; simpl in H;
      repeat destruct H as [[= <- <-]|H]; try tauto; lia.
  - intros [|w] r H; simpl in H; [|destruct w; discriminate]. injection H as <-. unfold row_valid, within. simpl.
    repeat split; try lia; try tauto; repeat constructor; lia.
  - exists (Ct 1 [(1%nat, 1); (0%nat, 5)]), 1%nat, 1, 0. simpl. split; [tauto|]. split; [tauto|]. vm_compute. reflexivity.
Qed.
Print Assumptions misplaced_borders_overbook.

(** Finding: a row with more workers than the border makes decoding raise. *)
Theorem serial_decoding_needs_borders :
  exists g est names cs nodes ch, chromosome_ok ch /\ serial_decode g est names cs nodes ch 0 = None /\
    exists ch', ch_order ch' = ch_order ch /\ ch_rows ch' = ch_rows ch /\ serial_decode g est names cs nodes ch' 0 <> None.
Proof.
  exists (Gr [] (fun _ => WU false [Req 0 1 1 9] 1)), (fun _ _ => 4), [0%nat], [Ct 0 [(0%nat, 4)]], [0%nat],
    (Chr [0%nat] [([3], 0%nat)] [[2]] (fun _ => WSpec [] [] None false)).
  split; [|split; [vm_compute; reflexivity|]].
  - split; [|split].
    + intros am ci a [[= <- <-]|[]] [<-|[]]. lia.
    + intros row b [<-|[]] [<-|[]]. lia.
    + intros n. split; [split; simpl; tauto|constructor].
  - exists (Chr [0%nat] [([3], 0%nat)] [[3]] (fun _ => WSpec [] [] None false)). repeat split. vm_compute. discriminate.
Qed.
Print Assumptions serial_decoding_needs_borders.
