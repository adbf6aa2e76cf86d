(** The invariant of the list scheduler over the Momentum timeline. *)
From Coq Require Import ZArith List Bool Lia Arith Permutation.
From Coq Require Import ZifyBool ZifyNat.
From Verif Require Import TimeModel MomentumModel MomentumSpec MomentumHistory MomentumTeamProofs
  GraphModel ScheduleModel ScheduleSpec ContractorProofs TeamProofs ScheduleProofs SchedulePoolProofs.
Import ListNotations.
Local Open Scope Z_scope.

(** ** Loads of schedules *)

Lemma busy_app h1 h2 a t : busy (h1 ++ h2) a t = busy h1 a t + busy h2 a t.
Proof. unfold busy. rewrite bookings_of_app, load_app. reflexivity. Qed.
Lemma sb_app l1 l2 : schedule_bookings (l1 ++ l2) = schedule_bookings l1 ++ schedule_bookings l2.
Proof. unfold schedule_bookings. rewrite map_app, concat_app. reflexivity. Qed.
Lemma sb_rev l a t : busy (schedule_bookings (rev l)) a t = busy (schedule_bookings l) a t.
Proof.
  induction l as [|x l IH]; [reflexivity|]. simpl rev. rewrite sb_app, busy_app, IH.
  change (x :: l) with ([x] ++ l). rewrite (sb_app [x] l), busy_app. lia.
Qed.

(** Number of workers of an agent in a team. *)
Fixpoint tcount (team : list worker) (a : agent) : Z :=
  match team with
  | [] => 0
  | w :: r => (if Nat.eqb (w_contractor w) (fst a) && Nat.eqb (w_kind w) (snd a) then w_count w else 0) + tcount r a
  end.
Lemma busy_team team s f a t :
  busy (map (fun w => ((w_contractor w, w_kind w), Bk s f (w_count w))) team) a t
  = if (s <=? t) && (t <? f) then tcount team a else 0.
Proof.
  unfold busy. induction team as [|w r IH]; simpl.
  - destruct (_ && _); reflexivity.
  - destruct (Nat.eqb (w_contractor w) (fst a) && Nat.eqb (w_kind w) (snd a)); simpl; rewrite IH; unfold active; simpl;
      destruct ((s <=? t) && (t <? f)); lia.
Qed.
Lemma busy_work n w a t : busy (work_bookings (n, w)) a t
  = if (sw_start w <=? t) && (t <? sw_finish w) then tcount (sw_team w) a else 0.
Proof. apply (busy_team (sw_team w)). Qed.
Lemma tcount_nonneg team a : (forall w, In w team -> 0 <= w_count w) -> 0 <= tcount team a.
Proof.
  induction team as [|w r IH]; intros H; simpl; [lia|].
  assert (H1 := H w (or_introl eq_refl)). specialize (IH (fun x Hx => H x (or_intror Hx))).
  destruct (_ && _); lia.
Qed.
Lemma consecutive_busy team c a t : (forall w, In w team -> 0 <= w_count w) ->
  forall new lo hi, consecutive team c lo new hi ->
  busy (schedule_bookings new) a t <= if (lo <=? t) && (t <? hi) then tcount team a else 0.
Proof.
  intros Hpos. assert (Hn := tcount_nonneg team a Hpos).
  induction new as [|[n w] new IH]; intros lo hi H.
  - cbn. destruct (_ && _); lia.
  - simpl in H. destruct H as (H1 & H2 & H3 & H4). assert (H5 := consecutive_le _ _ _ _ _ H4).
    apply IH in H4. change ((n, w) :: new) with ([(n, w)] ++ new). rewrite sb_app, busy_app.
    replace (schedule_bookings [(n, w)]) with (work_bookings (n, w)) by (unfold schedule_bookings; simpl; rewrite app_nil_r; reflexivity).
    rewrite busy_work, H2.
    destruct (Z.leb_spec (sw_start w) t), (Z.ltb_spec t (sw_finish w)), (Z.leb_spec lo t), (Z.ltb_spec t hi),
      (Z.leb_spec (sw_finish w) t); simpl in *; lia.
Qed.
Lemma booked_busy t fin d a m : 0 <= d ->
  busy (booked (Rq fin d t)) a m = if (fin - d <=? m) && (m <? fin) then tcount (to_workers t) a else 0.
Proof.
  intros Hd. unfold booked. simpl. destruct (Z.eqb_spec d 0) as [->|Hd0].
  - replace (fin - 0) with fin by lia. destruct (Z.leb_spec fin m), (Z.ltb_spec m fin); simpl; try reflexivity; lia.
  - rewrite <- busy_team. f_equal. unfold to_workers. rewrite map_map. apply map_ext. intros [[c k] n]. reflexivity.
Qed.

(** ** The find of the Momentum timeline *)

Lemma queue_loop_ge slot : forall fuel q sch start r, queue_loop fuel slot q sch start = Some r -> start <= r.
Proof.
  induction fuel as [|fuel IH]; intros q sch start r H; simpl in H; [discriminate|].
  destruct q as [|k q]; [injection H as <-; lia|].
  destruct (slot k start) as [found|]; [|discriminate].
  destruct (Z.ltb_spec found start); [discriminate|].
  destruct sch; [apply IH in H; lia|]. destruct (start =? found); apply IH in H; lia.
Qed.
Lemma find_min_start_ge tl c chain ind pt d team r : pt <= TIME_INF ->
  find_min_start_time tl c chain ind pt d team = Some r -> pt <= r.
Proof.
  intros Hpt. unfold find_min_start_time. destruct (forallb fst chain); [intros [= <-]; lia|].
  destruct (chain_lacks_workers _ _ _ _) as [[|]|]; try discriminate.
  - intros [= <-]. exact Hpt.
  - destruct chain as [|[b reqs] ch]; [discriminate|]. apply queue_loop_ge.
Qed.

Lemma parent_bound_range g sd asg apt n : 0 <= apt <= TIME_INF ->
  match asg with Some a => a <= TIME_INF | None => True end ->
  apt <= parent_bound g sd asg apt n <= TIME_INF /\ min_start_time g sd n <= parent_bound g sd asg apt n.
Proof.
  intros Ha Hs. assert (H := min_start_range g sd n). unfold parent_bound. rewrite tmax_spec.
  destruct asg; [rewrite tmax_spec|]; lia.
Qed.

Lemma momentum_find_start g est sd s n team ind apt st ft times :
  estimator_ok est -> 0 <= apt <= TIME_INF ->
  momentum_find g est sd s n team ind None apt = Some (st, ft, times) -> is_inf ft = false ->
  parent_bound g sd None apt n <= st <= TIME_INF.
Proof.
  intros Hest Hapt H Hft. unfold momentum_find in H.
  destruct (chain_of g n) as [chain|]; [|discriminate].
  destruct (parent_bound_range g sd None apt n Hapt I) as [Hb _].
  destruct (chain_exec _ _ _ _ _ _ _) as [exec tms] eqn:E.
  destruct (chain_exec_shape g est team Hest (parent_bound g sd None apt) (parent_bound g sd None apt n) chain 0 exec tms)
    as (_ & _ & He & _); [inf; lia|exact E|].
  destruct team as [|w team]; [injection H as <- <- _; lia|].
  destruct (find_min_start_time _ _ _ _ _ _ _) as [r|] eqn:Ef; [|discriminate].
  destruct (validate _ _ _ _); [|discriminate]. injection H as <- <- <-.
  apply find_min_start_ge in Ef; [|lia]. split; [exact Ef|].
  assert (Hr := tadd_min r exec ltac:(lia) ltac:(lia)). unfold is_inf in Hft. inf. lia.
Qed.

(** ** One call of schedule *)

Lemma momentum_schedule_spec g est p h sd s n t c sp st apt sd' s' :
  estimator_ok est -> spec_ok sp -> (forall m, 0 <= volume_of g m) ->
  minv p h s -> m_index s < TIME_INF -> 0 <= apt <= TIME_INF -> team_ok t ->
  parent_bound g sd None apt n <= st <= TIME_INF ->
  momentum_schedule g est sd s n (to_workers t) c sp (Some st) apt = Some (sd', s') ->
  exists chain new fin, chain_of g n = Some chain /\ sd' = rev new ++ sd /\ map fst new = chain /\
    consecutive (to_workers t) c st new fin /\ fin <= TIME_INF /\
    minv p (booked (Rq fin (fin - st) t) ++ h) s' /\ m_index s' <= m_index s + 1 /\
    (sp_time sp = None -> forall m w, In (m, w) new -> min_start_time g sd m <= sw_start w) /\
    (forall m w, hd_error new = Some (m, w) -> min_start_time g sd n <= sw_start w).
Proof.
  intros Hest [_ Hspt] Hvol Hm Hidx Hapt Ht Hst H. unfold momentum_schedule in H.
  destruct (chain_of g n) as [chain|] eqn:Ech; [|discriminate].
  destruct (momentum_find _ _ _ _ _ _ _ _ _) as [[[st0 ft0] times0]|] eqn:Ef; [|discriminate].
  destruct (parent_bound_range g sd None apt n Hapt I) as [Hb1 Hb2].
  assert (Hpb : parent_bound g sd (Some st) apt n = st).
  { unfold parent_bound in *. rewrite !tmax_spec in *. lia. }
  unfold momentum_find in Ef. rewrite Ech, Hpb in Ef.
  destruct (chain_exec g est (parent_bound g sd (Some st) apt) st (to_workers t) 0 chain) as [exec tms] eqn:Ec.
  assert (Hbr : forall m, - TIME_INF <= parent_bound g sd (Some st) apt m <= TIME_INF).
  { intros m. destruct (parent_bound_range g sd (Some st) apt m Hapt (proj2 Hst)). inf. lia. }
  assert (Hst0 : st0 = st /\ times0 = tms).
  { destruct (to_workers t) as [|w0 tw]; [injection Ef as <- _ <-; auto|].
    destruct (validate _ _ _ _); [injection Ef as <- _ <-; auto|discriminate]. }
  destruct Hst0 as [-> ->].
  destruct (chain_exec_shape g est (to_workers t) Hest (parent_bound g sd (Some st) apt) st chain 0 exec tms
             ltac:(inf; lia) Ec) as (L1 & L2 & L3 & _).
  set (times := match sp_time sp with Some a => _ | None => tms end) in H.
  assert (Hne : chain <> []).
  { unfold chain_of in Ech. destruct (inseparable_son g n); [destruct (inseparable_parent g n);
      [|destruct (inseparable_children _ _ _)]|]; try discriminate; injection Ech as <-; discriminate. }
  assert (Htimes : length times = length chain /\ Forall (fun x => 0 <= fst x /\ 0 <= snd x) times).
  { unfold times. destruct (sp_time sp) as [a|]; [|auto].
    destruct (assigned_times_spec (map (volume_of g) chain) a) as (A1 & A2 & _); [destruct chain; [congruence|discriminate]| |exact Hspt|].
    { apply Forall_forall. intros v Hv. apply in_map_iff in Hv as (m & <- & _). apply Hvol. }
    rewrite map_length in *. split; [exact A1|]. apply Forall_forall. intros x Hx. apply in_map_iff in Hx as (y & <- & Hy).
    rewrite Forall_forall in A2. simpl. split; [lia|apply A2; exact Hy]. }
  destruct Htimes as [T1 T2].
  destruct (place_chain (to_workers t) c st chain times sd) as [fin sd1] eqn:Ep.
  destruct (update_timeline _ _ _ _) as [s1|] eqn:Eu; [|discriminate]. injection H as <- <-.
  destruct (place_shape _ _ _ _ _ _ _ _ T1 T2 (proj2 Hst) Ep) as (new & N1 & N2 & N3).
  assert (Hge := place_ge _ _ _ _ _ _ _ _ T2 (proj2 Hst) Ep).
  rewrite tsub_exact in Eu by lia.
  destruct (update_timeline_spec p h s fin (fin - st) t Hm Hidx ltac:(lia) ltac:(lia) Ht) as [_ U].
  destruct (U _ Eu) as (_ & U2 & U3).
  exists chain, new, fin. do 7 (split; [first [reflexivity|assumption|lia]|]). split.
  - intros Hno. unfold times in Ep. rewrite Hno in Ep.
    destruct (chain_place_bound g est (to_workers t) Hest (parent_bound g sd (Some st) apt) st Hbr ltac:(lia)
      chain 0 exec tms c st sd fin sd1 ltac:(inf; lia) Ec ltac:(lia) Ep) as [_ (new' & M1 & M2 & M3)].
    assert (new' = new).
    { rewrite N1 in M1. apply app_inv_tail in M1. rewrite <- (rev_involutive new'), <- M1, rev_involutive. reflexivity. }
    subst new'. intros m w Hin. assert (Hbm := M3 m w Hin).
    destruct (parent_bound_range g sd (Some st) apt m Hapt (proj2 Hst)). lia.
  - intros m w Hhd. destruct new as [|[m' w'] new]; [discriminate|]. injection Hhd as -> ->.
    simpl in N3. lia.
Qed.

(** ** One iteration of the loop *)

Lemma chain_head g n chain : chain_of g n = Some chain -> exists r, chain = n :: r.
Proof.
  unfold chain_of. intros H. destruct (inseparable_son g n); [destruct (inseparable_parent g n)|].
  - injection H as <-. eauto.
  - destruct (inseparable_children _ _ _); [injection H as <-; eauto|discriminate].
  - injection H as <-. eauto.
Qed.

Lemma assoc_get_in l k n : assoc_get l k = Some n -> In (k, n) l.
Proof.
  induction l as [|[k' n'] r IH]; simpl; [discriminate|].
  destruct (Nat.eqb_spec k' k); [intros [= <-]; subst; auto|auto].
Qed.

Lemma Forall2_len {A B} (P : A -> B -> Prop) l l' : Forall2 P l l' -> length l = length l'.
Proof. induction 1; simpl; congruence. Qed.

Lemma Forall2_combine_kinds {B} (P : border -> B -> Prop) : forall bs counts, Forall2 P bs counts ->
  map fst (combine (map bd_kind bs) counts) = map bd_kind bs.
Proof. induction 1; simpl; [reflexivity|]. congruence. Qed.

Lemma borders_ordered p c rqs bs : reqs_ok rqs -> get_worker_borders p c rqs = Some bs ->
  Forall (fun b => 0 <= bd_min b <= bd_max b) bs.
Proof.
  intros [_ Hr] Eb. assert (HB := borders_spec _ _ _ _ Eb). clear Eb.
  induction HB as [|r b rs bs' Hb HB IH]; constructor.
  - inversion Hr; subst. lia.
  - apply IH. inversion Hr; auto.
Qed.

(** The team made from borders and counts. *)
Lemma counted_team p rqs spec_workers full c bs counts :
  reqs_ok rqs -> (forall k n, In (k, n) spec_workers -> 0 <= n) ->
  get_worker_borders p c rqs = Some bs ->
  Forall2 (count_ok spec_workers full) bs counts ->
  let tm := map (fun kc => Wk c (fst kc) (snd kc)) (combine (map bd_kind bs) counts) in
  exists t, tm = to_workers t /\ team_ok t /\ t = team_of_contractor c (combine (map r_kind rqs) (map w_count tm)) /\
    length (map w_count tm) = length rqs /\
    Forall2 (fun r k => w_contractor k = c /\ w_kind k = r_kind r /\ 0 <= w_count k /\
       exists cap, capacity p (c, r_kind r) = Some cap /\
       count_ok spec_workers full (Bd (r_kind r) (r_min r) (Z.min (r_max r) cap) cap) (w_count k)) rqs tm.
Proof.
  intros [Hnd Hr] Hsp Eb HC tm.
  assert (HB := borders_spec _ _ _ _ Eb).
  assert (Hkinds : map bd_kind bs = map r_kind rqs).
  { clear -HB. induction HB as [|r b rs bs' Hb HB IH]; simpl; [reflexivity|]. f_equal; [tauto|exact IH]. }
  assert (HF : Forall2 (fun r k => w_contractor k = c /\ w_kind k = r_kind r /\ 0 <= w_count k /\
       exists cap, capacity p (c, r_kind r) = Some cap /\
       count_ok spec_workers full
                (Bd (r_kind r) (r_min r) (Z.min (r_max r) cap) cap) (w_count k)) rqs tm).
  { unfold tm. clear -HB HC Hr Hsp. revert counts HC. induction HB as [|r b rs bs' Hb HB IH]; intros counts HC;
      inversion HC; subst; simpl; constructor.
    - destruct Hb as (B1 & B2 & B3 & B4 & B5). simpl. split; [reflexivity|]. split; [exact B1|].
      inversion Hr; subst. split.
      + match goal with X : count_ok _ _ _ _ |- _ => rename X into Hc end. unfold count_ok in Hc.
        destruct (assoc_get _ _) as [m|] eqn:Ea; [|lia]. apply assoc_get_in in Ea. apply Hsp in Ea.
        destruct (_ || _); lia.
      + exists (bd_count b). split; [exact B3|]. destruct b as [bk bm bx bc]. simpl in *. subst. assumption.
    - apply IH; [inversion Hr; auto|assumption]. }
  assert (Htm : map w_count tm = counts).
  { unfold tm. rewrite map_map. simpl. clear -HC. induction HC; simpl; [reflexivity|]. congruence. }
  exists (team_of_contractor c (combine (map bd_kind bs) counts)).
  split; [unfold tm, to_workers, team_of_contractor; rewrite map_map; reflexivity|].
  split.
  { split.
    - assert (Emap : map fst (team_of_contractor c (combine (map bd_kind bs) counts)) = map (fun k => (c, k)) (map bd_kind bs)).
      { transitivity (map (fun k => (c, k)) (map fst (combine (map bd_kind bs) counts))).
        - unfold team_of_contractor. rewrite !map_map. reflexivity.
        - rewrite (Forall2_combine_kinds _ _ _ HC). reflexivity. }
      rewrite Emap. apply FinFun.Injective_map_NoDup; [intros x y [=]; assumption|]. rewrite Hkinds. exact Hnd.
    - intros a m Hin. unfold team_of_contractor in Hin. apply in_map_iff in Hin as ([k m'] & [= <- <-] & Hin).
      assert (Hin2 : In (Wk c k m') tm) by (unfold tm; apply in_map_iff; exists (k, m'); auto).
      clear -HF Hin2. induction HF as [|r w rs tm' Hw HF IH]; [destruct Hin2|].
      destruct Hin2 as [->|Hin2]; [simpl in Hw; tauto|auto]. }
  split; [rewrite <- Hkinds, Htm; reflexivity|]. split; [|exact HF].
  rewrite map_length. symmetry. eapply Forall2_len. exact HF.
Qed.

Lemma chosen_team p rqs spec_workers optimize c bs counts :
  optimizer_ok optimize -> reqs_ok rqs -> (forall k n, In (k, n) spec_workers -> 0 <= n) ->
  get_worker_borders p c rqs = Some bs ->
  optimize_using_spec spec_workers (map bd_kind bs) (map bd_count bs) (optimize bs) = Some counts ->
  let tm := map (fun kc => Wk c (fst kc) (snd kc)) (combine (map bd_kind bs) counts) in
  exists t, tm = to_workers t /\ team_ok t /\ t = team_of_contractor c (combine (map r_kind rqs) (map w_count tm)) /\
    length (map w_count tm) = length rqs /\
    Forall2 (fun r k => w_contractor k = c /\ w_kind k = r_kind r /\ 0 <= w_count k /\
       exists cap, capacity p (c, r_kind r) = Some cap /\
       count_ok spec_workers (Nat.eqb (length spec_workers) (length rqs))
                (Bd (r_kind r) (r_min r) (Z.min (r_max r) cap) cap) (w_count k)) rqs tm.
Proof.
  intros Hopt Hr Hsp Eb Eo.
  assert (HC := team_counts_spec _ _ _ _ Hopt (borders_ordered _ _ _ _ Hr Eb) Eo).
  rewrite <- (Forall2_len _ _ _ (borders_spec _ _ _ _ Eb)) in HC. apply counted_team; assumption.
Qed.

Lemma runner_team {S : Type} find reqs (optimize : nat -> nat -> sched -> S -> list border -> option (list bool) -> list Z -> option (list Z))
  contractors spec sd s n apt c st ft team :
  (forall n c sd s, optimizer_ok (optimize n c sd s)) -> reqs_ok (reqs n) -> spec_ok (spec n) ->
  run_with_contractor S find reqs optimize contractors spec sd s n apt c = Done (st, ft, team) -> is_inf ft = false ->
  exists t, team = to_workers t /\ team_ok t /\ t = team_of_contractor (ct_id c) (combine (map r_kind (reqs n)) (map w_count team)) /\
    length (map w_count team) = length (reqs n) /\
    find sd s n team (sp_independent (spec n)) apt = Some (st, ft) /\
    Forall2 (fun r k => w_contractor k = ct_id c /\ w_kind k = r_kind r /\ 0 <= w_count k /\
       exists cap, capacity (pool_of contractors) (ct_id c, r_kind r) = Some cap /\
       count_ok (sp_workers (spec n)) (Nat.eqb (length (sp_workers (spec n))) (length (reqs n)))
                (Bd (r_kind r) (r_min r) (Z.min (r_max r) cap) cap) (w_count k)) (reqs n) team.
Proof.
  intros Hopt Hr [Hsp _] H Hft. unfold run_with_contractor in H.
  destruct (get_worker_borders _ _ _) as [bs|] eqn:Eb; [|injection H as <- <- <-; discriminate].
  destruct (optimize_using_spec _ _ _ _) as [counts|] eqn:Eo; [|discriminate].
  destruct (chosen_team _ _ _ _ _ _ _ (Hopt n (ct_id c) sd s) Hr Hsp Eb Eo) as (t & T1 & T2 & T3 & T4 & T5).
  destruct (find _ _ _ _ _ _) as [[st' ft']|] eqn:Ef; [|discriminate].
  injection H as <- <- <-. exists t. auto 8.
Qed.

(** ** The loop *)

(** [p] is the pool of the timeline and [staff hd w] what holds of the team of every work
    of the chain of [hd]. The timeline had [i0] bookings before. *)
Record tinv0 {i0 : Z} (g : graph) (p : pool) (staff : nat -> swork -> Prop) (spec : nat -> work_spec) (chains : list (list nat))
       (sd : sched) (s : mstate) (h : history) : Prop := {
  i_keys : map fst sd = rev (concat chains);
  i_minv : minv p h s;
  i_idx : m_index s <= i0 + Z.of_nat (length chains);
  i_load : forall a t, busy (schedule_bookings sd) a t <= busy h a t;
  i_times : forall n w, In (n, w) sd -> 0 <= sw_start w <= sw_finish w /\ sw_finish w <= TIME_INF;
  i_team : forall hd r n w, In (hd :: r) chains -> In n (hd :: r) -> In (n, w) sd -> staff hd w;
  i_prec : forall e wu wv, In e (g_edges g) -> In (e_from e, wu) sd -> In (e_to e, wv) sd ->
     ~ same_chain chains (e_from e) (e_to e) -> not_pinned spec chains (e_to e) ->
     tadd (sw_finish wu) (e_lag e) <= sw_start wv;
  i_chain : forall c u v wu wv, In c chains -> comes_before c u v -> In (u, wu) sd -> In (v, wv) sd ->
     sw_finish wu <= sw_start wv /\ sw_team wu = sw_team wv /\ sw_contractor wu = sw_contractor wv
}.
Notation tinv := (tinv0 (i0 := 0)).
Notation sinv g cs spec := (tinv g (pool_of cs) (staffed g cs spec) spec).
(** The bookings added to the history cover the works added to the schedule. *)
Definition covered (sd : sched) (h : history) (sd' : sched) (h' : history) : Prop :=
  forall a t, busy (schedule_bookings sd') a t + busy h a t <= busy h' a t + busy (schedule_bookings sd) a t.
Lemma covered_trans sd1 h1 sd2 h2 sd3 h3 : covered sd1 h1 sd2 h2 -> covered sd2 h2 sd3 h3 -> covered sd1 h1 sd3 h3.
Proof. intros A B a t. specialize (A a t). specialize (B a t). lia. Qed.

Lemma in_sd_key (sd : sched) n w : In (n, w) sd -> In n (map fst sd).
Proof. intros H. apply in_map_iff. exists (n, w). auto. Qed.
Lemma nodup_key (sd : sched) n w w' : NoDup (map fst sd) -> In (n, w) sd -> In (n, w') sd -> w = w'.
Proof.
  induction sd as [|[m v] sd IH]; simpl; intros Hnd H H'; [destruct H|].
  inversion Hnd; subst. destruct H as [[= -> ->]|H], H' as [[= E]|H'].
  - congruence.
  - exfalso. apply in_sd_key in H'. auto.
  - subst. exfalso. apply in_sd_key in H. auto.
  - auto.
Qed.
Lemma sd_get_in sd n w : NoDup (map fst sd) -> (sd_get sd n = Some w <-> In (n, w) sd).
Proof.
  intros Hnd. induction sd as [|[m v] sd IH]; simpl; [split; [discriminate|intros []]|].
  simpl in Hnd. inversion Hnd; subst. destruct (Nat.eqb_spec m n) as [->|Hne].
  - split; [intros [= <-]; auto|]. intros [[= <-]|H]; [reflexivity|]. exfalso. apply in_sd_key in H. auto.
  - rewrite IH by assumption. split; [auto|]. intros [[= -> _]|H]; [congruence|exact H].
Qed.

Lemma comes_before_split {A} (l1 l2 : list A) a b : comes_before (l1 ++ l2) a b ->
  In a l1 \/ In b l2.
Proof.
  revert l2. induction l1 as [|x l1 IH]; intros l2 (p & q & r & E); simpl in E.
  - right. subst. apply in_or_app. right. right. apply in_or_app. right. left. reflexivity.
  - destruct p as [|y p]; simpl in E; injection E as E1 E2; [left; left; exact E1|].
    destruct (IH l2) as [H|H]; [exists p, q, r; exact E2|left; right; exact H|right; exact H].
Qed.

Lemma nodup_app_disj {A} (l1 l2 : list A) x : NoDup (l1 ++ l2) -> In x l1 -> In x l2 -> False.
Proof.
  induction l1 as [|y l1 IH]; simpl; intros Hnd H1 H2; [destruct H1|]. inversion Hnd; subst.
  destruct H1 as [->|H1]; [|auto]. apply H3. apply in_or_app. auto.
Qed.

Lemma nodup_app_l {A} (l1 l2 : list A) : NoDup (l1 ++ l2) -> NoDup l1.
Proof.
  induction l1 as [|x l1 IH]; simpl; intros H; [constructor|]. inversion H; subst. constructor; [|auto].
  intros Hx. apply H2. apply in_or_app; auto.
Qed.
Lemma nodup_app_r {A} (l1 l2 : list A) : NoDup (l1 ++ l2) -> NoDup l2.
Proof. induction l1 as [|x l1 IH]; simpl; intros H; [exact H|]. inversion H; auto. Qed.
Lemma in_concat_elem {A} (c : list A) cs x : In c cs -> In x c -> In x (concat cs).
Proof. intros H1 H2. apply in_concat. eauto. Qed.

(** Works of a chain placed one after another, not before their parents, and their team
    booked in the timeline. *)
Lemma placed_inv i0 g p staff spec n cid t st2 chains sd s h sd1 s1 c new fin :
  tinv0 (i0 := i0) g p staff spec chains sd s h ->
  chain_of g n = Some c -> NoDup (concat (chains ++ [c])) ->
  (forall e, In e (g_edges g) -> In (e_from e) (concat (chains ++ [c])) -> In (e_to e) (concat (chains ++ [c])) ->
     comes_before (concat (chains ++ [c])) (e_from e) (e_to e)) ->
  team_ok t -> 0 <= st2 ->
  (forall w, sw_team w = to_workers t -> sw_contractor w = cid -> staff n w) ->
  sd1 = rev new ++ sd -> map fst new = c -> consecutive (to_workers t) cid st2 new fin -> fin <= TIME_INF ->
  minv p (booked (Rq fin (fin - st2) t) ++ h) s1 -> m_index s1 <= m_index s + 1 ->
  (sp_time (spec n) = None -> forall m w, In (m, w) new -> min_start_time g sd m <= sw_start w) ->
  (forall m w, hd_error new = Some (m, w) -> min_start_time g sd n <= sw_start w) ->
  tinv0 (i0 := i0) g p staff spec (chains ++ [c]) sd1 s1 (booked (Rq fin (fin - st2) t) ++ h).
Proof.
  intros HI Hch Hnd Htopo Ht Hst0 Hstaff A2 A3 A4 A5 A6 A7 A8 A9.
    destruct HI as [K M X L T TM P C].
    destruct (chain_head g n c Hch) as [r Er'].
    assert (HndT : NoDup (map fst sd1)).
    { rewrite A2, map_app, map_rev, A3, K. rewrite <- rev_app_distr. apply NoDup_rev.
      rewrite concat_app in Hnd. simpl in Hnd. rewrite app_nil_r in Hnd. exact Hnd. }
    assert (Hcat : concat (chains ++ [c]) = concat chains ++ c).
    { rewrite concat_app. simpl. rewrite app_nil_r. reflexivity. }
    rewrite Hcat in *.
    assert (Hold : forall m w, In (m, w) sd -> In m (concat chains)).
    { intros m w Hin. apply in_sd_key in Hin. rewrite K in Hin. apply in_rev in Hin. exact Hin. }
    assert (Hnew : forall m w, In (m, w) new -> In m c).
    { intros m w Hin. rewrite <- A3. apply (in_sd_key new m w Hin). }
    assert (Hcases : forall m w, In (m, w) sd1 -> In (m, w) new \/ In (m, w) sd).
    { intros m w Hin. rewrite A2 in Hin. apply in_app_or in Hin as [Hin|Hin]; [left; apply in_rev; exact Hin|auto]. }
    assert (Hdisj : forall m, In m (concat chains) -> In m c -> False).
    { intros m H1 H2. eapply nodup_app_disj; eauto. }
    constructor.
    - rewrite A2, map_app, map_rev, A3, K. rewrite <- rev_app_distr, Hcat. reflexivity.
    - exact A6.
    - rewrite app_length. simpl. lia.
    - intros a m. rewrite A2, sb_app, !busy_app, sb_rev. specialize (L a m).
      assert (Hw : forall w, In w (to_workers t) -> 0 <= w_count w).
      { intros w Hw. apply in_to_workers in Hw. destruct Ht as [_ Ht]. eapply Ht; eauto. }
      assert (B := consecutive_busy (to_workers t) cid a m Hw new st2 fin A4).
      rewrite booked_busy by (apply consecutive_le in A4; lia).
      replace (fin - (fin - st2)) with st2 by lia. lia.
    - intros m w Hin. apply Hcases in Hin as [Hin|Hin]; [|apply (T m w Hin)].
      destruct (consecutive_in _ _ _ _ _ _ _ A4 Hin) as (B1 & B2 & _). lia.
    - intros hd r0 m w Hc Hm Hin. apply in_app_or in Hc as [Hc|[Hc|[]]].
      + apply Hcases in Hin as [Hin|Hin].
        * exfalso. apply (Hdisj m); [eapply in_concat_elem; eauto|eapply Hnew; eauto].
        * eapply TM; eauto.
      + rewrite Er' in Hc. injection Hc as <- <-. apply Hcases in Hin as [Hin|Hin].
        * destruct (consecutive_in _ _ _ _ _ _ _ A4 Hin) as (_ & _ & B3 & B4).
          apply Hstaff; assumption.
        * exfalso. apply (Hdisj m); [eapply Hold; eauto|]. rewrite Er'. exact Hm.
    - intros e wu wv He Hu Hv Hns Hnp.
      apply Hcases in Hu as [Hu|Hu]; apply Hcases in Hv as [Hv|Hv].
      + exfalso. apply Hns. exists c. split; [apply in_or_app; right; left; reflexivity|]. eauto.
      + exfalso. assert (Hu' := Hnew _ _ Hu). assert (Hv' := Hold _ _ Hv).
        destruct (Htopo e He) as (p1 & q & r1 & Hq).
        { apply in_or_app; auto. } { apply in_or_app; auto. }
        destruct (comes_before_split (concat chains) c (e_from e) (e_to e)) as [Hx|Hx];
          [exists p1, q, r1; exact Hq|eapply Hdisj; eauto|eapply Hdisj; eauto].
      + assert (Hge := min_start_ge g sd e wu He ltac:(apply sd_get_in; [|exact Hu]; rewrite K; apply NoDup_rev;
          eapply nodup_app_l; exact Hnd)).
        assert (Hvc := Hnew _ _ Hv).
        destruct Hnp as (hd & r0 & Hc & Hm & Hor). apply in_app_or in Hc as [Hc|[Hc|[]]].
        { exfalso. apply (Hdisj (e_to e)); [eapply in_concat_elem; eauto|exact Hvc]. }
        rewrite Er' in Hc. injection Hc as <- <-. destruct Hor as [Hno|Heq].
        * specialize (A8 Hno _ _ Hv). lia.
        * destruct new as [|[m0 w0] new']; [destruct Hv|].
          assert (m0 = n) by (rewrite Er' in A3; simpl in A3; congruence). subst m0.
          assert (wv = w0).
          { apply (nodup_key sd1 n); [exact HndT| |].
            - rewrite A2. apply in_or_app. left. apply in_rev. rewrite rev_involutive. rewrite Heq in Hv. exact Hv.
            - rewrite A2. apply in_or_app. left. apply in_rev. rewrite rev_involutive. left. reflexivity. }
          subst w0. specialize (A9 n wv eq_refl). rewrite Heq in Hge. lia.
      + apply (P e wu wv He Hu Hv).
        * intros (c0 & H1 & H2). apply Hns. exists c0. split; [apply in_or_app; auto|exact H2].
        * destruct Hnp as (hd & r0 & Hc & Hm & Hor). exists hd, r0. split; [|auto].
          apply in_app_or in Hc as [Hc|[Hc|[]]]; [exact Hc|]. exfalso.
          apply (Hdisj (e_to e)); [eapply Hold; eauto|]. rewrite Hc. exact Hm.
    - intros c0 u v wu wv Hc Hcb Hu Hv.
      assert (Hin0 : In u c0 /\ In v c0).
      { destruct Hcb as (p1 & q & r1 & ->). split; apply in_or_app; right; [left; reflexivity|right; apply in_or_app; right; left; reflexivity]. }
      destruct Hin0 as [Hu0 Hv0]. apply in_app_or in Hc as [Hc|[Hc|[]]].
      + apply Hcases in Hu as [Hu|Hu]; [exfalso; apply (Hdisj u); [eapply in_concat_elem; eauto|eauto]|].
        apply Hcases in Hv as [Hv|Hv]; [exfalso; apply (Hdisj v); [eapply in_concat_elem; eauto|eauto]|].
        eapply C; eauto.
      + subst c0.
        apply Hcases in Hu as [Hu|Hu]; [|exfalso; apply (Hdisj u); eauto].
        apply Hcases in Hv as [Hv|Hv]; [|exfalso; apply (Hdisj v); eauto].
        destruct Hcb as (p1 & q & r1 & Ec). rewrite <- A3 in Ec.
        destruct (map_eq_app _ _ _ _ Ec) as (n1 & n2 & E1 & E2 & E3).
        destruct n2 as [|[u' wu'] n2]; [discriminate|]. simpl in E3. injection E3 as -> E3.
        destruct (map_eq_app _ _ _ _ E3) as (n3 & n4 & E4 & E5 & E6).
        destruct n4 as [|[v' wv'] n4]; [discriminate|]. simpl in E6. injection E6 as -> E6.
        assert (Hord := consecutive_order _ _ new st2 fin n1 u wu' n3 v wv' n4 A4 ltac:(congruence)).
        assert (HndN : NoDup (map fst new)).
        { rewrite A3. eapply nodup_app_r; exact Hnd. }
        assert (wu' = wu).
        { apply (nodup_key new u); [exact HndN| |exact Hu]. rewrite E1. apply in_or_app. right. left. reflexivity. }
        assert (wv' = wv).
        { apply (nodup_key new v); [exact HndN| |exact Hv]. rewrite E1, E4. apply in_or_app. right. right. apply in_or_app. right. left. reflexivity. }
        subst wu' wv'.
        destruct (consecutive_in _ _ _ _ _ _ _ A4 Hu) as (_ & _ & B3 & B4).
        destruct (consecutive_in _ _ _ _ _ _ _ A4 Hv) as (_ & _ & B5 & B6).
        split; [exact Hord|]. split; congruence.
Qed.

Lemma place_covered sd t cid st2 new fin h : team_ok t -> consecutive (to_workers t) cid st2 new fin ->
  covered sd h (rev new ++ sd) (booked (Rq fin (fin - st2) t) ++ h).
Proof.
  intros Ht A4 a m. rewrite sb_app, !busy_app, sb_rev.
  assert (Hw : forall w, In w (to_workers t) -> 0 <= w_count w).
  { intros w Hw. apply in_to_workers in Hw. destruct Ht as [_ Ht]. eapply Ht; eauto. }
  assert (B := consecutive_busy (to_workers t) cid a m Hw new st2 fin A4).
  rewrite booked_busy by (apply consecutive_le in A4; lia).
  replace (fin - (fin - st2)) with st2 by lia. lia.
Qed.

Lemma place_inv_from i0 g est p staff spec apt n cid t st2 chains sd s h sd1 s1 c :
  estimator_ok est -> (forall n, 0 <= volume_of g n) -> spec_ok (spec n) -> 0 <= apt <= TIME_INF ->
  tinv0 (i0 := i0) g p staff spec chains sd s h ->
  i0 + Z.of_nat (length chains) < TIME_INF ->
  chain_of g n = Some c -> NoDup (concat (chains ++ [c])) ->
  (forall e, In e (g_edges g) -> In (e_from e) (concat (chains ++ [c])) -> In (e_to e) (concat (chains ++ [c])) ->
     comes_before (concat (chains ++ [c])) (e_from e) (e_to e)) ->
  team_ok t -> parent_bound g sd None apt n <= st2 <= TIME_INF ->
  (forall w, sw_team w = to_workers t -> sw_contractor w = cid -> staff n w) ->
  momentum_schedule g est sd s n (to_workers t) cid (spec n) (Some st2) apt = Some (sd1, s1) ->
  exists h', tinv0 (i0 := i0) g p staff spec (chains ++ [c]) sd1 s1 h' /\ covered sd h sd1 h' /\
    (forall m w, In (m, w) sd1 -> In (m, w) sd \/ apt <= sw_start w).
Proof.
  intros Hest Hvol Hspec Hapt HI Hlen Hch Hnd Htopo Ht Hst2 Hstaff Em.
  assert (HX := i_idx _ _ _ _ _ _ _ _ HI). assert (HM := i_minv _ _ _ _ _ _ _ _ HI).
  destruct (momentum_schedule_spec g est p h sd s n t cid (spec n) st2 apt sd1 s1)
    as (chain & new & fin & A1 & A2 & A3 & A4 & A5 & A6 & A7 & A8 & A9); auto; try lia.
  rewrite Hch in A1. injection A1 as <-.
  assert (Hst0 : 0 <= st2 /\ apt <= st2). { destruct (parent_bound_range g sd None apt n Hapt I). unfold parent_bound in Hst2. rewrite tmax_spec in Hst2. unfold parent_bound in *. lia. }
  exists (booked (Rq fin (fin - st2) t) ++ h). split; [eapply placed_inv; eauto; apply Hst0|]. split.
  - rewrite A2. eapply place_covered; eauto.
  - intros m w Hin. rewrite A2 in Hin. apply in_app_or in Hin as [Hin|Hin]; [right|left; exact Hin]. apply in_rev in Hin.
    destruct (consecutive_in _ _ _ _ _ _ _ A4 Hin) as (B1 & _). lia.
Qed.

Lemma place_inv g est p staff spec apt n cid t st2 chains sd s h sd1 s1 c :
  estimator_ok est -> (forall n, 0 <= volume_of g n) -> spec_ok (spec n) -> 0 <= apt <= TIME_INF ->
  tinv g p staff spec chains sd s h ->
  Z.of_nat (length chains) < TIME_INF ->
  chain_of g n = Some c -> NoDup (concat (chains ++ [c])) ->
  (forall e, In e (g_edges g) -> In (e_from e) (concat (chains ++ [c])) -> In (e_to e) (concat (chains ++ [c])) ->
     comes_before (concat (chains ++ [c])) (e_from e) (e_to e)) ->
  team_ok t -> parent_bound g sd None apt n <= st2 <= TIME_INF ->
  (forall w, sw_team w = to_workers t -> sw_contractor w = cid -> staff n w) ->
  momentum_schedule g est sd s n (to_workers t) cid (spec n) (Some st2) apt = Some (sd1, s1) ->
  exists h', tinv g p staff spec (chains ++ [c]) sd1 s1 h'.
Proof.
  intros. destruct (place_inv_from 0 g est p staff spec apt n cid t st2 chains sd s h sd1 s1 c) as (h' & A & _); auto. eauto.
Qed.


Section Loop.
  Variables (g : graph) (est : nat -> list worker -> Z)
    (optimize : nat -> nat -> sched -> mstate -> list border -> option (list bool) -> list Z -> option (list Z))
    (cs : list contractor) (spec : nat -> work_spec) (apt : Z).
  Hypothesis Hcs : contractors_ok cs.
  Hypothesis Hest : estimator_ok est.
  Hypothesis Hopt : forall n c sd s, optimizer_ok (optimize n c sd s).
  Hypothesis Hreqs : forall n, reqs_ok (reqs_of g n).
  Hypothesis Hvol : forall n, 0 <= volume_of g n.
  Hypothesis Hspec : forall n, spec_ok (spec n).
  Hypothesis Hapt : 0 <= apt <= TIME_INF.

  Let mfind := momentum_times g est.
  Let step := build_step mstate mfind (momentum_schedule g est) (reqs_of g) optimize cs spec.
  Let loop := build_loop mstate mfind (momentum_schedule g est) (reqs_of g) optimize cs spec.

  Lemma runner_range sd s n c st ft tm :
    run_with_contractor mstate mfind (reqs_of g) optimize cs spec sd s n apt c = Done (st, ft, tm) ->
    - TIME_INF <= ft <= TIME_INF.
  Proof.
    unfold run_with_contractor. inf. destruct (get_worker_borders _ _ _) as [bs|].
    2: { intros [= <- <- <-]. unfold time_inf. apply set_time_range. }
    destruct (optimize_using_spec _ _ _ _) as [counts|]; [|discriminate].
    destruct (mfind _ _ _ _ _ _) as [[st' ft']|] eqn:Ef; [|discriminate]. intros [= <- <- <-].
    unfold mfind, momentum_times, momentum_find in Ef. destruct (chain_of g n); [|discriminate].
    destruct (chain_exec _ _ _ _ _ _ _) as [exec tms].
    destruct (map _ _) as [|w team'].
    - injection Ef as <- <-. destruct (parent_bound_range g sd None apt n Hapt I). lia.
    - destruct (find_min_start_time _ _ _ _ _ _ _); [|discriminate].
      destruct (validate _ _ _ _); [|discriminate]. injection Ef as <- <-. apply set_time_range.
  Qed.

  Lemma step_inv_from i0 is_first is_last n chains sd s h sd' s' c :
    tinv0 (i0 := i0) g (pool_of cs) (staffed g cs spec) spec chains sd s h -> (is_first = true -> sd = []) ->
    i0 + Z.of_nat (length chains) < TIME_INF ->
    chain_of g n = Some c -> NoDup (concat (chains ++ [c])) ->
    (forall e, In e (g_edges g) -> In (e_from e) (concat (chains ++ [c])) -> In (e_to e) (concat (chains ++ [c])) ->
       comes_before (concat (chains ++ [c])) (e_from e) (e_to e)) ->
    step is_first is_last apt n sd s = Done (sd', s') ->
    exists h', tinv0 (i0 := i0) g (pool_of cs) (staffed g cs spec) spec (chains ++ [c]) sd' s' h' /\ covered sd h sd' h' /\
      (forall m w, In (m, w) sd' -> In (m, w) sd \/ apt <= sw_start w).
  Proof.
    intros HI Hfirst Hlen Hch Hnd Htopo H. unfold step, build_step in H.
    destruct (run_contractor_search _ _ _) as [[[[st ft] ct] team]| |] eqn:Es; try discriminate.
    apply contractor_search_best in Es; [|intros c0 st0 ft0 tm0; apply runner_range]. destruct Es as (Ein & Er & Eft & _).
    destruct (runner_team _ _ _ _ _ _ _ _ _ _ _ _ _ Hopt (Hreqs n) (Hspec n) Er Eft) as (t & -> & Ht & _ & _ & Ef & HF).
    set (st1 := if is_first then apt else st) in H.
    set (st2 := if is_last then tmax st1 0 else st1) in H.
    destruct (momentum_schedule _ _ _ _ _ _ _ _ _ _) as [[sd1 s1]|] eqn:Em; [|discriminate].
    injection H as <- <-.
    assert (Hst : parent_bound g sd None apt n <= st <= TIME_INF).
    { unfold mfind, momentum_times in Ef. destruct (momentum_find _ _ _ _ _ _ _ _ _) as [[[a b] l]|] eqn:Emf; [|discriminate].
      injection Ef as -> ->. eapply momentum_find_start; eauto. }
    assert (Hst2 : parent_bound g sd None apt n <= st2 <= TIME_INF).
    { assert (H1 : parent_bound g sd None apt n <= st1 <= TIME_INF).
      { unfold st1. destruct is_first; [|exact Hst]. rewrite (Hfirst eq_refl).
        unfold parent_bound. rewrite min_start_nil, tmax_spec. lia. }
      unfold st2. destruct is_last; [|exact H1]. rewrite tmax_spec.
      destruct (parent_bound_range g sd None apt n Hapt I). inf. lia. }
    clearbody st2. clear st1.
    assert (Hct : In ct cs /\ contractor_enabled (spec n) (ct_id ct) = true).
    { unfold filter_contractors in Ein. apply filter_In in Ein. exact Ein. }
    eapply (place_inv_from i0 g est (pool_of cs)); [exact Hest|exact Hvol|apply Hspec|exact Hapt|exact HI|exact Hlen|exact Hch|exact Hnd|exact Htopo|exact Ht|exact Hst2| |exact Em].
    intros w B3 B4. exists ct. destruct Hct as [Hct1 Hct2]. split; [exact Hct1|]. split; [exact B4|]. split.
    { unfold contractor_enabled in Hct2. destruct (sp_contractors (spec n)) as [|x l]; [auto|].
      right. apply existsb_exists in Hct2 as (y & Hy & Hey). apply Nat.eqb_eq in Hey. subst y. exact Hy. }
    rewrite B3. clear -HF Hcs Hct1. change (u_reqs (g_unit g n)) with (reqs_of g n). revert HF.
    generalize (length (reqs_of g n)) as ln. intros ln HF.
    induction HF as [|rq k rs tm (D1 & D2 & D3 & cap & D4 & D5) HF IH]; constructor; [|exact IH].
    split; [exact D1|]. split; [exact D2|]. split; [exact D3|]. exists cap.
    split; [eapply capacity_pool_own; eauto|]. intros Hno. unfold count_ok in D5.
    rewrite Hno in D5. simpl in D5. lia.
  Qed.

  Lemma step_inv is_first is_last n chains sd s h sd' s' c :
    sinv g cs spec chains sd s h -> (is_first = true -> sd = []) ->
    Z.of_nat (length chains) < TIME_INF ->
    chain_of g n = Some c -> NoDup (concat (chains ++ [c])) ->
    (forall e, In e (g_edges g) -> In (e_from e) (concat (chains ++ [c])) -> In (e_to e) (concat (chains ++ [c])) ->
       comes_before (concat (chains ++ [c])) (e_from e) (e_to e)) ->
    step is_first is_last apt n sd s = Done (sd', s') ->
    exists h', sinv g cs spec (chains ++ [c]) sd' s' h'.
  Proof.
    intros. edestruct (step_inv_from 0 is_first is_last n chains sd s h sd' s' c) as (h' & A & _); eauto.
  Qed.

  Lemma comes_before_prefix {A} (l1 l2 : list A) a b : NoDup (l1 ++ l2) -> comes_before (l1 ++ l2) a b -> In b l1 -> comes_before l1 a b.
  Proof.
    intros Hnd (p & q & r & E) Hb.
    revert l1 Hnd E Hb. induction p as [|x p IH]; intros l1 Hnd E Hb; simpl in E.
    - destruct l1 as [|y l1]; [destruct Hb|]. simpl in E. injection E as -> E.
      simpl in Hnd. inversion Hnd as [|? ? Hni Hnd']; subst.
      destruct Hb as [->|Hb].
      { exfalso. apply Hni. rewrite E. apply in_or_app. right. left. reflexivity. }
      apply in_split in Hb as (x1 & x2 & ->). exists [], x1, x2. reflexivity.
    - destruct l1 as [|y l1]; [destruct Hb|]. simpl in E. injection E as -> E.
      simpl in Hnd. inversion Hnd as [|? ? Hni Hnd']; subst. destruct Hb as [->|Hb].
      { exfalso. apply Hni. rewrite E. apply in_or_app. right. right. apply in_or_app. right. left. reflexivity. }
      destruct (IH l1 Hnd' E Hb) as (p' & q' & r' & ->). exists (x :: p'), q', r'. reflexivity.
  Qed.

  Lemma loop_inv_from i0 : forall nodes is_first chains rest sd s h sd' s',
    tinv0 (i0 := i0) g (pool_of cs) (staffed g cs spec) spec chains sd s h -> (is_first = true -> sd = []) ->
    chains_of g nodes = Some rest ->
    i0 + Z.of_nat (length (chains ++ rest)) < TIME_INF ->
    NoDup (concat (chains ++ rest)) ->
    (forall e, In e (g_edges g) -> In (e_from e) (concat (chains ++ rest)) -> In (e_to e) (concat (chains ++ rest)) ->
       comes_before (concat (chains ++ rest)) (e_from e) (e_to e)) ->
    loop is_first apt nodes sd s = Done (sd', s') ->
    exists h', tinv0 (i0 := i0) g (pool_of cs) (staffed g cs spec) spec (chains ++ rest) sd' s' h' /\ covered sd h sd' h' /\
      (forall m w, In (m, w) sd' -> In (m, w) sd \/ apt <= sw_start w).
  Proof.
    induction nodes as [|n nodes IH]; intros is_first chains rest sd s h sd' s' HI Hf Hch Hlen Hnd Htopo H.
    - simpl in Hch. injection Hch as <-. rewrite app_nil_r. simpl in H. injection H as <- <-. exists h. split; [exact HI|]. split; [intros a t; lia|auto].
    - cbn [chains_of] in Hch. destruct (chain_of g n) as [c|] eqn:Ec; [|discriminate].
      destruct (chains_of g nodes) as [rest'|] eqn:Er; [|discriminate]. injection Hch as <-.
      unfold loop in H. cbn [build_loop] in H. fold loop in H. fold step in H.
      destruct (step _ _ _ _ _ _) as [[sd1 s1]| |] eqn:Es; try discriminate.
      assert (Eapp : chains ++ c :: rest' = (chains ++ [c]) ++ rest') by (rewrite <- app_assoc; reflexivity).
      rewrite Eapp in *. rewrite concat_app in Hnd, Htopo.
      assert (Hs : exists h1, tinv0 (i0 := i0) g (pool_of cs) (staffed g cs spec) spec (chains ++ [c]) sd1 s1 h1 /\ covered sd h sd1 h1 /\
          (forall m w, In (m, w) sd1 -> In (m, w) sd \/ apt <= sw_start w));
        [eapply step_inv_from; [exact HI|exact Hf| |exact Ec| | |exact Es]|destruct Hs as (h1 & HI1 & Hc1 & Ha1)].
      { rewrite !app_length in Hlen. simpl in Hlen. lia. }
      { eapply nodup_app_l. exact Hnd. }
      { intros e He H1 H2. eapply comes_before_prefix; [exact Hnd| |exact H2].
        apply Htopo; [exact He|apply in_or_app; left; exact H1|apply in_or_app; left; exact H2]. }
      destruct (IH false (chains ++ [c]) rest' sd1 s1 h1 sd' s') as (h2 & HI2 & Hc2 & Ha2); auto.
      + discriminate.
      + rewrite concat_app. exact Hnd.
      + rewrite concat_app. exact Htopo.
      + exists h2. split; [exact HI2|]. split; [eapply covered_trans; eauto|].
        intros m w Hin. destruct (Ha2 m w Hin) as [Hin'|]; [apply Ha1; exact Hin'|auto].
  Qed.

  Lemma loop_inv : forall nodes is_first chains rest sd s h sd' s',
    sinv g cs spec chains sd s h -> (is_first = true -> sd = []) ->
    chains_of g nodes = Some rest ->
    Z.of_nat (length (chains ++ rest)) < TIME_INF ->
    NoDup (concat (chains ++ rest)) ->
    (forall e, In e (g_edges g) -> In (e_from e) (concat (chains ++ rest)) -> In (e_to e) (concat (chains ++ rest)) ->
       comes_before (concat (chains ++ rest)) (e_from e) (e_to e)) ->
    loop is_first apt nodes sd s = Done (sd', s') ->
    exists h', sinv g cs spec (chains ++ rest) sd' s' h'.
  Proof.
    intros. edestruct (loop_inv_from 0 nodes is_first chains rest sd s h sd' s') as (h' & A & _); eauto.
  Qed.
End Loop.

Lemma chains_of_length g : forall nodes chains, chains_of g nodes = Some chains -> length chains = length nodes.
Proof.
  induction nodes as [|n nodes IH]; simpl; intros chains H; [injection H as <-; reflexivity|].
  destruct (chain_of g n); [|discriminate]. destruct (chains_of g nodes) as [cs|] eqn:E; [|discriminate].
  injection H as <-. simpl. f_equal. apply IH. reflexivity.
Qed.

Lemma sinv_init g cs spec : contractors_ok cs -> sinv g cs spec [] [] (momentum_init (pool_of cs)) [].
Proof.
  intros Hcs. constructor; simpl; try reflexivity; try lia; try (intros; contradiction).
  - apply momentum_init_inv. apply pool_of_ok. exact Hcs.
Qed.

Lemma busy_before_zero (sd : sched) a t : (forall n w, In (n, w) sd -> 0 <= sw_start w) -> t < 0 ->
  busy (schedule_bookings sd) a t = 0.
Proof.
  intros H Ht. induction sd as [|[n w] sd IH]; [reflexivity|].
  change ((n, w) :: sd) with ([(n, w)] ++ sd). rewrite sb_app, busy_app, IH by (intros m v Hm; eapply H; right; eauto).
  replace (schedule_bookings [(n, w)]) with (work_bookings (n, w)) by (unfold schedule_bookings; simpl; rewrite app_nil_r; reflexivity).
  rewrite busy_work. specialize (H n w (or_introl eq_refl)).
  destruct (Z.leb_spec (sw_start w) t); [lia|]. reflexivity.
Qed.

Lemma build_feasible : forall g est optimize cs spec apt nodes chains sd s,
    contractors_ok cs -> estimator_ok est ->
    (forall n c sd s, optimizer_ok (optimize n c sd s)) ->
    (forall n, reqs_ok (reqs_of g n)) -> (forall n, 0 <= volume_of g n) -> (forall n, spec_ok (spec n)) ->
    0 <= apt <= TIME_INF ->
    chains_of g nodes = Some chains -> NoDup (concat chains) -> Z.of_nat (length nodes) < TIME_INF ->
    (forall e, In e (g_edges g) -> In (e_from e) (concat chains) -> In (e_to e) (concat chains) ->
       comes_before (concat chains) (e_from e) (e_to e)) ->
    momentum_build g est optimize cs spec apt nodes = Done (sd, s) ->
    map fst sd = rev (concat chains) /\
    (forall n w, In (n, w) sd -> 0 <= sw_start w <= sw_finish w /\ sw_finish w <= TIME_INF) /\
    (forall e wu wv, In e (g_edges g) -> In (e_from e, wu) sd -> In (e_to e, wv) sd ->
       ~ same_chain chains (e_from e) (e_to e) -> not_pinned spec chains (e_to e) ->
       tadd (sw_finish wu) (e_lag e) <= sw_start wv) /\
    (forall c u v wu wv, In c chains -> comes_before c u v -> In (u, wu) sd -> In (v, wv) sd ->
       sw_finish wu <= sw_start wv /\ sw_team wu = sw_team wv /\ sw_contractor wu = sw_contractor wv) /\
    (forall hd r n w, In (hd :: r) chains -> In n (hd :: r) -> In (n, w) sd -> staffed g cs spec hd w) /\
    (forall ct k n t, In ct cs -> In (k, n) (ct_workers ct) ->
       busy (schedule_bookings sd) (ct_id ct, k) t <= n).
Proof.
  intros g est optimize cs spec apt nodes chains sd s Hcs Hest Hopt Hreqs Hvol Hspec Hapt Hch Hnd Hlen Htopo H.
  assert (HI : exists h, sinv g cs spec ([] ++ chains) sd s h).
  { eapply loop_inv; [exact Hcs|exact Hest|exact Hopt|exact Hreqs|exact Hvol|exact Hspec|exact Hapt|
      apply (sinv_init g cs spec Hcs)|reflexivity|exact Hch| |exact Hnd|exact Htopo|exact H].
    simpl. rewrite (chains_of_length _ _ _ Hch). exact Hlen. }
  destruct HI as [h [K M X L T TM P C]]. simpl in *.
  do 5 (split; [assumption|]). intros ct k n t Hct Hin.
  assert (Hcap := capacity_pool cs ct k n Hcs Hct Hin).
  destruct (Z.ltb_spec t 0).
  - rewrite busy_before_zero; [|intros m w Hm; apply (T m w Hm)|assumption]. destruct Hcs as [_ Hok].
    destruct (Hok ct Hct) as [_ Hn]. eapply Hn; eauto.
  - eapply Z.le_trans; [apply L|]. eapply minv_busy_le; eauto.
Qed.
