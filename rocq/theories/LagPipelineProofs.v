(** The graph that restructuring makes is a work graph the schedulers accept. *)
From Coq Require Import ZArith QArith Qround List Bool Lia Lqa Permutation Sorted Relations Cantor.
From Verif Require Import TimeModel MomentumModel JITModel GraphModel ScheduleModel TopoModel TraverseModel ValidationModel OrderModel
  PipelineModel ResourceModel EnvModel RestructModel LagPipelineModel
  Digraph TopoProofs ScheduleSpec ScheduleProofs TopoTheorems TraverseProofs TraverseTheorems HeadProofs HeadTheorems RestructSplit RestructProofs RestructTheorems
  EstimatorModel EstimatorTheorems ResourceTheorems PipelineTheorems OrderTheorems EnvTheorems.
Import ListNotations.
Local Open Scope Z_scope.

(** ** The conditions on a project *)
(** Every work but the start waits for another one, every work but the finish is waited for
    (as in the graphs that parsing and generation make), the start and the finish have
    Finish-Start edges only, inseparable edges form chains, priorities do not decrease
    along edges, and volumes, lags and requirements fit into the time horizon. *)
Record project_ok (p : project) (table : productivities) (apt D Lg : Z) : Prop := {
  pk_nodup : NoDup (pj_nodes p);
  pk_order : forall e, In e (pj_edges p) -> comes_before (pj_nodes p) (re_from e) (re_to e);
  pk_single : forall k, k = start_kind \/ k = finish_kind ->
    NoDup (map (fun e => (re_from e, re_to e)) (filter (fun e => k (re_type e)) (pj_edges p)));
  pk_start : In (pj_start p) (pj_nodes p);
  pk_finish : In (pj_finish p) (pj_nodes p);
  pk_parents : forall w, In w (pj_nodes p) -> w <> pj_start p -> exists e, In e (pj_edges p) /\ re_to e = w /\ is_dependency (re_type e) = true;
  pk_children : forall w, In w (pj_nodes p) -> w <> pj_finish p -> exists e, In e (pj_edges p) /\ re_from e = w /\ is_dependency (re_type e) = true;
  pk_ends : forall e, In e (pj_edges p) -> re_to e <> pj_start p /\ re_from e <> pj_finish p /\
    (re_from e = pj_start p \/ re_to e = pj_finish p -> re_type e = FS);
  pk_chains : forall e e', In e (pj_edges p) -> In e' (pj_edges p) -> re_type e = IFS -> re_type e' = IFS ->
    (re_to e = re_to e' -> re_from e = re_from e') /\ (re_from e = re_from e' -> re_to e = re_to e');
  pk_prio : forall e, In e (pj_edges p) -> pj_prio p (re_from e) <= pj_prio p (re_to e) /\
    (re_type e = IFS -> pj_prio p (re_from e) = pj_prio p (re_to e));
  pk_reqs : forall w, reqs_ok (u_reqs (pj_unit p w));
  pk_amounts : forall w, (forall r, In r (u_reqs (pj_unit p w)) -> 0 <= r_volume r) /\
    (forall l c, In l (pj_counts p w) -> In c l -> 0 <= c) /\ 0 <= u_volume (pj_unit p w);
  pk_chain_reqs : forall e, In e (pj_edges p) -> re_type e = IFS ->
    Forall2 (fun r r' => r_kind r = r_kind r' /\ r_min r' <= r_min r /\ r_max r <= r_max r') (u_reqs (pj_unit p (re_from e))) (u_reqs (pj_unit p (re_to e)));
  pk_service : forall w, u_service (pj_unit p w) = true -> u_reqs (pj_unit p w) = [];
  pk_apt : 0 <= apt;
  pk_productivity : forall w r c, In r (u_reqs (pj_unit p w)) ->
    exists f, table (r_kind r) = Some f /\ (0 < f c)%Q /\ (inject_Z (r_volume r) <= inject_Z D * f c)%Q;
  pk_lags : forall e, In e (pj_edges p) -> re_type e = FS -> (0 <= re_lag e)%Q;
  pk_horizon : 0 <= D /\ 0 <= Lg /\ (forall e, In e (pj_edges p) -> Qceiling (re_lag e) <= Lg) /\
    2 * (apt + (1 + Z.of_nat (length (pj_nodes p)) + 2 * Z.of_nat (length (pj_edges p))) * (1 + D + Lg)) < TIME_INF
}.

(** ** Codes *)
Lemma decode_code i : decode (code i) = i.
Proof. destruct i as [w [k|]]; unfold decode, code; cbn [fst snd]; rewrite cancel_of_to; reflexivity. Qed.
Lemma code_decode n : code (decode n) = n.
Proof.
  unfold decode, code. destruct (of_nat n) as [w k] eqn:E. cbn [fst snd]. rewrite <- (cancel_to_of n), E. destruct k; reflexivity.
Qed.
Lemma code_inj i j : code i = code j -> i = j.
Proof. intros E. rewrite <- (decode_code i), <- (decode_code j), E. reflexivity. Qed.
Lemma nid_eqb_eq a b : nid_eqb a b = true <-> a = b.
Proof.
  destruct a as [x [i|]], b as [y [j|]]; unfold nid_eqb; cbn [fst snd]; rewrite andb_true_iff, Nat.eqb_eq; try rewrite Nat.eqb_eq; split;
    try (intros [-> ->]; reflexivity); try (intros [= -> ->]; auto); try (intros [_ X]; discriminate); try discriminate; try (intros [-> _]; reflexivity); intros [= ->]; auto.
Qed.

(** ** The number of stages *)
Lemma split_length w amounts use_lag volume restructuring :
  (length (fst (split_work w amounts use_lag volume restructuring)) <= S (length restructuring))%nat.
Proof.
  unfold split_work.
  assert (L : length (psort (map (fun x => (proportion volume use_lag (fst x) (snd x), x)) restructuring)) = length restructuring).
  { rewrite <- (map_length (fun x => (proportion volume use_lag (fst x) (snd x), x)) restructuring). generalize (map (fun x => (proportion volume use_lag (fst x) (snd x), x)) restructuring).
    assert (I : forall x l, length (pinsert x l) = S (length l)).
    { intros x l. induction l as [|y l IH]; cbn [pinsert]; [reflexivity|]. destruct (Qle_bool (fst x) (fst y)); cbn [length]; auto. }
    intros l. induction l as [|x l IH]; cbn [psort]; [reflexivity|]. rewrite I, IH. reflexivity. }
  destruct (psort _) as [|x r]; cbn [length] in L; [cbn; lia|].
  assert (F : forall r s, (length (ss_stages (fold_left (split_step w amounts use_lag) r s)) <= length r + length (ss_stages s))%nat).
  { clear. induction r as [|y r IH]; intros s; cbn [fold_left length]; [lia|]. etransitivity; [apply IH|].
    destruct y as [a ed]. unfold split_step. destruct (Qeq_bool a (ss_prev s)); cbn [ss_stages]; [lia|]. rewrite app_length. cbn. lia. }
  unfold split_last. cbn [fst]. rewrite app_length. cbn [length]. specialize (F r (split_first w amounts use_lag x)).
  unfold split_first in F at 2. destruct x as [a ed]. cbn [ss_stages length] in F. lia.
Qed.
Lemma restructuring_length g use_lag : NoDup (rg_nodes g) ->
  (length (concat (map (restructuring_edges g use_lag) (rg_nodes g))) <= 2 * length (rg_edges g))%nat.
Proof.
  intros N.
  assert (S1 : forall w, (length (restructuring_edges g use_lag w) <= length (filter (fun e => Nat.eqb (re_from e) w) (rg_edges g)) + length (filter (fun e => Nat.eqb (re_to e) w) (rg_edges g)))%nat).
  { intros w. unfold restructuring_edges. cbv zeta.
    set (l := filter (fun e => Nat.eqb (re_from e) w) (rg_edges g)). set (m := filter (fun e => Nat.eqb (re_to e) w) (rg_edges g)).
    assert (K : forall l : list redge, (length (filter (fun e => is_ss (re_type e)) l) + length (filter (fun e => is_ffs (re_type e)) l) <= length l)%nat).
    { clear. induction l as [|e l IH]; cbn [filter length]; [lia|]. destruct (re_type e); cbn [is_ss is_ffs length]; lia. }
    assert (K' : forall l : list redge, (length (filter (fun e => is_ff (re_type e)) l) + length (filter (fun e => is_ffs (re_type e)) l) <= length l)%nat).
    { clear. induction l as [|e l IH]; cbn [filter length]; [lia|]. destruct (re_type e); cbn [is_ff is_ffs length]; lia. }
    specialize (K l). specialize (K' m). destruct use_lag; repeat rewrite app_length; repeat rewrite map_length; cbn [length]; lia. }
  assert (S2 : forall (k : redge -> nat) es ns, NoDup ns -> (length (concat (map (fun w => filter (fun e => Nat.eqb (k e) w) es) ns)) <= length es)%nat).
  { clear. intros k. induction es as [|e es IH]; intros ns N.
    - induction ns as [|n ns IHn]; cbn; [lia|]. inversion N; subst. auto.
    - specialize (IH ns N). cbn [length].
      assert (X : (length (concat (map (fun w => filter (fun e0 => Nat.eqb (k e0) w) (e :: es)) ns)) <=
                  length (concat (map (fun w => filter (fun e0 => Nat.eqb (k e0) w) es) ns)) + (if in_dec Nat.eq_dec (k e) ns then 1 else 0))%nat).
      { clear IH. induction ns as [|n ns IHn]; [cbn; lia|]. inversion N as [|? ? N1 N2]; subst. specialize (IHn N2). cbn [map concat]. rewrite !app_length.
        change (filter (fun e0 => Nat.eqb (k e0) n) (e :: es)) with (if Nat.eqb (k e) n then e :: filter (fun e0 => Nat.eqb (k e0) n) es else filter (fun e0 => Nat.eqb (k e0) n) es).
        destruct (Nat.eqb (k e) n) eqn:E; cbn [length].
        - apply Nat.eqb_eq in E. destruct (in_dec Nat.eq_dec (k e) (n :: ns)) as [_|B]; [|exfalso; apply B; left; auto].
          destruct (in_dec Nat.eq_dec (k e) ns) as [A|A]; [exfalso; apply N1; rewrite <- E; exact A|]. lia.
        - apply Nat.eqb_neq in E. destruct (in_dec Nat.eq_dec (k e) (n :: ns)) as [[B|B]|B]; [congruence| |];
            destruct (in_dec Nat.eq_dec (k e) ns); try contradiction; try (exfalso; apply B; right; assumption); lia. }
      destruct (in_dec Nat.eq_dec (k e) ns); lia. }
  assert (A := S2 re_from (rg_edges g) (rg_nodes g) N). assert (B := S2 re_to (rg_edges g) (rg_nodes g) N).
  assert (T : (length (concat (map (restructuring_edges g use_lag) (rg_nodes g))) <=
     length (concat (map (fun w => filter (fun e => Nat.eqb (re_from e) w) (rg_edges g)) (rg_nodes g))) +
     length (concat (map (fun w => filter (fun e => Nat.eqb (re_to e) w) (rg_edges g)) (rg_nodes g))))%nat).
  { clear A B N. induction (rg_nodes g) as [|w l IH]; cbn [map concat length]; [lia|]. rewrite !app_length. specialize (S1 w). lia. }
  lia.
Qed.
Lemma restructure_stages g use_lag : forall ws s s', restructure_nodes g use_lag s ws = Some s' ->
  gs_nodes s' = gs_nodes s ++ concat (map (fun w => fst (split_work w (rg_amounts g w) use_lag (rg_volume g) (restructuring_edges g use_lag w))) ws).
Proof.
  induction ws as [|w ws IH]; intros s s' E; cbn [restructure_nodes map concat] in *; [injection E as <-; rewrite app_nil_r; reflexivity|].
  destruct (restructure_node g use_lag s w) as [s1|] eqn:E1; [|discriminate]. rewrite (IH _ _ E). rewrite app_assoc. f_equal.
  unfold restructure_node in E1. destruct (split_work w _ _ _ _) as [st ms]. cbn [fst]. unfold fill_parents in E1.
  destruct (fill_edges _ _ _ _) as [f|]; [|discriminate]. injection E1 as <-. reflexivity.
Qed.
Lemma stages_length g use_lag nodes edges : NoDup (rg_nodes g) -> restructure g use_lag = Some (nodes, edges) ->
  (length nodes <= length (rg_nodes g) + 2 * length (rg_edges g))%nat.
Proof.
  intros N E. unfold restructure in E. destruct (restructure_nodes _ _ _ _) as [s|] eqn:E1; [|discriminate]. injection E as <- _.
  rewrite (restructure_stages _ _ _ _ _ E1). cbn [gs_nodes app].
  assert (A := restructuring_length g use_lag N).
  assert (B : (length (concat (map (fun w => fst (split_work w (rg_amounts g w) use_lag (rg_volume g) (restructuring_edges g use_lag w))) (rg_nodes g))) <=
     length (rg_nodes g) + length (concat (map (restructuring_edges g use_lag) (rg_nodes g))))%nat).
  { clear. induction (rg_nodes g) as [|w l IH]; cbn [map concat length]; [lia|]. rewrite !app_length.
    assert (X := split_length w (rg_amounts g w) use_lag (rg_volume g) (restructuring_edges g use_lag w)). lia. }
  lia.
Qed.

(** ** Times of works *)
(** The stages of work [w] are carried out from [s] to [f]. *)
Definition work_span (sd : sched) (w : nat) (s f : Z) : Prop :=
  (exists n x, In (n, x) sd /\ fst (decode n) = w /\ sw_start x = s) /\
  (exists n x, In (n, x) sd /\ fst (decode n) = w /\ sw_finish x = f) /\
  (forall n x, In (n, x) sd -> fst (decode n) = w -> s <= sw_start x /\ sw_start x <= sw_finish x /\ sw_finish x <= f).
(** Some stages of work [w] amount to the share [q] of it and are finished by time [t]. *)
Definition done_by (all : list stage) (sd : sched) (w : nat) (t : Z) (q : Q) : Prop :=
  exists l, NoDup (map st_id l) /\ (total_share l == q)%Q /\
    forall s, In s l -> In s all /\ fst (st_id s) = w /\ exists x, In (code (st_id s), x) sd /\ sw_finish x <= t.
(** ... and are not begun before [t]. *)
Definition left_at (all : list stage) (sd : sched) (w : nat) (t : Z) (q : Q) : Prop :=
  exists l, NoDup (map st_id l) /\ (total_share l == q)%Q /\
    forall s, In s l -> In s all /\ fst (st_id s) = w /\ exists x, In (code (st_id s), x) sd /\ t <= sw_start x.
(** What an edge from a work carried out from [su] to [fu] to a work carried out from [sv] to
    [fv] means. A lag of a Start-Start edge is a part of the earlier work that has to be done
    before the later one begins, a lag of a Finish-Finish edge a part of the later work that
    has to be left when the earlier one ends; both, for the combined edges. *)
Definition honoured (p : project) (all : list stage) (use_lag : bool) (sd : sched) (e : redge) (su fu sv fv : Z) : Prop :=
  let part := lag_part (re_lag e) (pj_volume p (re_from e)) in
  match re_type e with
  | FS => tadd fu (Qceiling (re_lag e)) <= sv
  | IFS => fu <= sv
  | SS => su <= sv /\ (use_lag = true -> forall q, part q -> done_by all sd (re_from e) sv q)
  | FF => fu <= fv /\ (use_lag = true -> forall q, part q -> left_at all sd (re_to e) fu q)
  | FFS =>
      if use_lag then su <= sv /\ fu <= fv /\ forall q, part q -> done_by all sd (re_from e) sv q /\ left_at all sd (re_to e) fu q
      else fu <= sv
  end.
Lemma span_unique sd w s f s' f' : work_span sd w s f -> work_span sd w s' f' -> s = s' /\ f = f'.
Proof.
  intros ((n1 & x1 & I1 & D1 & <-) & (n2 & x2 & I2 & D2 & <-) & A) ((m1 & y1 & J1 & E1 & <-) & (m2 & y2 & J2 & E2 & <-) & B).
  assert (A1 := A _ _ J1 E1). assert (A2 := A _ _ J2 E2). assert (B1 := B _ _ I1 D1). assert (B2 := B _ _ I2 D2). lia.
Qed.
Lemma lag_part_unique lag volume q q' : lag_part lag volume q -> lag_part lag volume q' -> (q == q')%Q.
Proof. intros [(A & B & C)|[A C]] [(A' & B' & C')|[A' C']]; rewrite C, C'; try reflexivity; exfalso; auto. Qed.
Lemma nodup_app_l {A} (l m : list A) : NoDup (l ++ m) -> NoDup l.
Proof. induction l as [|x l IH]; cbn [app]; intros H; [constructor|]. inversion H as [|? ? N1 N2]; subst. constructor; [|auto]. intros X. apply N1, in_or_app. auto. Qed.
Lemma nodup_app_r {A} (l m : list A) : NoDup (l ++ m) -> NoDup m.
Proof. induction l as [|x l IH]; cbn [app]; intros H; [exact H|]. inversion H; subst. auto. Qed.
Lemma qint_Z z : qint (inject_Z z) = z.
Proof. unfold qint, inject_Z. cbn [Qnum Qden]. apply Z.quot_1_r. Qed.

(** ** Outcomes *)
(** The first work of works joined by inseparable edges; such groups depend on each other
    cyclically. *)
Definition joined_works (p : project) (u v : nat) : Prop := exists e, In e (pj_edges p) /\ re_type e = IFS /\ re_from e = u /\ re_to e = v.
Definition group_head (p : project) (w : nat) : Prop := In w (pj_nodes p) /\ ~ exists u, joined_works p u w.
Definition group_before (p : project) (x y : nat) : Prop := group_head p x /\ group_head p y /\ x <> y /\
  exists e, In e (pj_edges p) /\ path0 (joined_works p) x (re_from e) /\ path0 (joined_works p) y (re_to e).
Definition groups_cyclic (p : project) : Prop := exists w, path (group_before p) w w.
(** [t] is the latest finish time. *)
Definition latest (sd : sched) (t : Z) : Prop := (forall n x, In (n, x) sd -> sw_finish x <= t) /\ exists n x, In (n, x) sd /\ sw_finish x = t.
(** [w] is the restructured work graph with the given stages. *)
Definition restructured (p : project) (use_lag : bool) (w : work_graph) (all : list stage) : Prop :=
  exists edges, restructure (pj_rgraph p) use_lag = Some (all, edges) /\ wg_graph w = stage_graph p all edges /\
    wg_start w = code (pj_start p, None) /\ wg_finish w = code (pj_finish p, None) /\ Permutation (wg_nodes w) (map code (map st_id all)) /\
    topological (linked (wg_graph w)) (wg_nodes w).
(** [sd] is what the scheduler answers for it, with the priorities of the works. *)
Definition answered {T} (run : graph -> list nat -> (nat -> Z) -> list contractor -> (nat -> work_spec) -> scheduled T) (p : project) (cs : list contractor)
    (spec : nat -> work_spec) (w : work_graph) (sd : sched) (s : T) : Prop :=
  exists prio, (forall n, prio n = pj_prio p (fst (decode n))) /\ run (wg_graph w) (wg_nodes w) prio cs (stage_spec spec) = Scheduled sd s.
(** A schedule of it that can be carried out and that does what the edges of the project ask for. *)
Definition carries_out (p : project) (use_lag : bool) (cs : list contractor) (spec : nat -> work_spec) (w : work_graph) (sd : sched) (t : Z) : Prop :=
  exists all, restructured p use_lag w all /\
    feasible (wg_graph w) cs (stage_spec spec) (wg_nodes w) sd /\
    (forall v, In v (pj_nodes p) -> exists s f, work_span sd v s f) /\
    (forall e su fu sv fv, In e (pj_edges p) -> work_span sd (re_from e) su fu -> work_span sd (re_to e) sv fv -> honoured p all use_lag sd e su fu sv fv) /\
    latest sd t.
(** A scheduler that is correct for work graphs. *)
Definition scheduler_correct {T} (run : graph -> list nat -> (nat -> Z) -> list contractor -> (nat -> work_spec) -> scheduled T) (table : productivities) (apt : Z) : Prop :=
  forall g nodes prio cs spec, default_run g nodes table prio cs spec apt ->
    (exists sd s, run g nodes prio cs spec = Scheduled sd s /\ feasible g cs spec nodes sd /\
       forall e wu wv, In e (g_edges g) -> In (e_from e, wu) sd -> In (e_to e, wv) sd -> tadd (sw_finish wu) (e_lag e) <= sw_start wv) \/
    (run g nodes prio cs spec = CircularGraph /\ chains_cyclic g nodes) \/
    (run g nodes prio cs spec = NotEnoughWorkers /\ exists n, is_head g nodes n /\ nobody_able g cs spec n).
(** What may be specified for the works of the project: as for scheduling it as it is. *)
Record specified_ok (p : project) (cs : list contractor) (spec : nat -> work_spec) : Prop := {
  sk_spec : forall w, spec_ok (spec w) /\ sp_time (spec w) = None /\ spec_fits cs (u_reqs (pj_unit p w)) (spec w);
  sk_complete : spec_complete (plain_graph p) spec;
  sk_counts : counts_within (plain_graph p) spec;
  sk_only : forall w, ~ In w (pj_nodes p) -> sp_workers (spec w) = []
}.

(** Priorities that do not decrease along dependencies are not changed. *)
Lemma corrected_unchanged depth g nodes prio : acyclic (depends_on g) -> (forall x y, depends_on g x y -> In x nodes /\ In y nodes) -> (length nodes <= depth)%nat ->
  (forall x y, depends_on g x y -> prio x <= prio y) ->
  exists prio', check_and_correct depth g nodes prio = Some prio' /\ forall n, prio' n = prio n.
Proof.
  intros A C L M. destruct (priorities_corrected g nodes depth prio A C L) as (prio' & E & _ & H & _). exists prio'. split; [exact E|]. intros n.
  destruct (H n) as [(m & Pm & Em) Hm]. apply Z.le_antisymm; [apply Hm, rt_refl|]. rewrite Em. clear - M Pm. induction Pm as [x y D|x|x y z _ IH1 _ IH2]; [auto|lia|lia].
Qed.

(** ** The restructured graph *)
Section Restructured.
  Variables (p : project) (table : productivities) (apt D Lg : Z) (use_lag : bool).
  Hypothesis Hp : project_ok p table apt D Lg.
  Lemma project_restructurable : restructurable (pj_rgraph p) use_lag.
  Proof.
    constructor; cbn [pj_rgraph rg_nodes rg_edges rg_amounts].
    - apply Hp.
    - apply Hp.
    - intros _. apply Hp.
    - intros w i j. destruct (pk_amounts _ _ _ _ _ Hp w) as (A & B & _). unfold amount. destruct i as [|i]; cbn [nth].
      + destruct (nth_in_or_default j (map r_volume (u_reqs (pj_unit p w))) 0) as [H|H]; [|lia].
        apply in_map_iff in H as (r & <- & H). apply A, H.
      + destruct (nth_in_or_default i (pj_counts p w) []) as [H|H]; [|rewrite H; destruct j; cbn; lia].
        destruct (nth_in_or_default j (nth i (pj_counts p w) []) 0) as [H'|H']; [|lia]. eapply B; eauto.
  Qed.
  Variables (stages : nat -> list stage) (edges : list nedge).
  Let all := concat (map stages (pj_nodes p)).
  Hypothesis R : restructure (pj_rgraph p) use_lag = Some (all, edges).
  Hypothesis Ids : forall w, exists k, map st_id (stages w) = map (fun i => (w, Some i)) (seq 0 k) ++ [(w, None)] /\
       (k = 0%nat <-> forall e b, In e (pj_edges p) -> ~ divides use_lag w e b).
  Hypothesis Am : forall w s, In s (stages w) -> (0 <= st_share s)%Q /\ shape (st_amounts s) = shape (map r_volume (u_reqs (pj_unit p w)) :: pj_counts p w) /\ forall i j, 0 <= amount i j (st_amounts s).
  Hypothesis Tot : forall w, (total_share (stages w) == 1)%Q /\ forall i j, total_amount i j (stages w) = amount i j (map r_volume (u_reqs (pj_unit p w)) :: pj_counts p w).
  Hypothesis Nd : NoDup (map st_id all).
  Hypothesis Ty : forall ne, In ne edges -> (ne_type ne = FS \/ ne_type ne = IFS) /\ comes_before (map st_id all) (ne_from ne) (ne_to ne).
  Hypothesis Src : forall ne, In ne edges -> (exists w, In w (pj_nodes p) /\ stage_link (stages w) ne) \/
       exists e, In e (pj_edges p) /\ (start_part use_lag (pj_volume p) stages e ne \/ finish_part use_lag (pj_volume p) stages e ne).
  Hypothesis Lnk : forall w ne, In w (pj_nodes p) -> stage_link (stages w) ne -> In ne edges.
  Hypothesis Rep : forall e, In e (pj_edges p) ->
       (re_type e <> FF -> exists ne, In ne edges /\ start_part use_lag (pj_volume p) stages e ne) /\
       (re_type e = FF \/ use_lag = true /\ re_type e = FFS -> exists ne, In ne edges /\ finish_part use_lag (pj_volume p) stages e ne).
  Let g := stage_graph p all edges.
  Let codes := map code (map st_id all).

  Lemma stage_work w s : In s (stages w) -> fst (st_id s) = w.
  Proof.
    intros H. destruct (Ids w) as (k & E & _). apply (in_map st_id) in H. rewrite E in H. apply in_app_or in H as [H|[H|[]]].
    - apply in_map_iff in H as (i & <- & _). reflexivity.
    - rewrite <- H. reflexivity.
  Qed.
  Lemma in_all s : In s all <-> In (fst (st_id s)) (pj_nodes p) /\ In s (stages (fst (st_id s))).
  Proof.
    unfold all. rewrite in_concat. split.
    - intros (l & Hl & Hs). apply in_map_iff in Hl as (w & <- & Hw). rewrite (stage_work w s Hs). auto.
    - intros [H1 H2]. exists (stages (fst (st_id s))). split; [apply in_map, H1|exact H2].
  Qed.
  Lemma in_codes n : In n codes <-> exists s, In s all /\ decode n = st_id s.
  Proof.
    unfold codes. rewrite map_map, in_map_iff. split.
    - intros (s & <- & H). exists s. split; [exact H|]. apply decode_code.
    - intros (s & H & E). exists s. split; [|exact H]. rewrite <- E. apply code_decode.
  Qed.
  Lemma codes_nodup : NoDup codes.
  Proof.
    unfold codes. clear - Nd. induction (map st_id all) as [|i l IH]; [constructor|]. inversion Nd as [|? ? N1 N2]; subst. cbn [map]. constructor; [|apply IH, N2].
    intros H. apply in_map_iff in H as (j & E & H). apply code_inj in E. subst j. contradiction.
  Qed.
  Lemma codes_length : (length codes <= length (pj_nodes p) + 2 * length (pj_edges p))%nat.
  Proof. unfold codes. rewrite !map_length. exact (stages_length (pj_rgraph p) use_lag all edges (pk_nodup _ _ _ _ _ Hp) R). Qed.
  Lemma find_stage s : In s all -> find (fun s0 => nid_eqb (st_id s0) (st_id s)) all = Some s.
  Proof.
    revert Nd. generalize all. clear. intros l. induction l as [|x l IH]; intros N H; [destruct H|]. cbn [map] in N. inversion N as [|? ? N1 N2]; subst. cbn [find].
    destruct (nid_eqb (st_id x) (st_id s)) eqn:E.
    - apply nid_eqb_eq in E. destruct H as [->|H]; [reflexivity|]. exfalso. apply N1. rewrite E. apply in_map, H.
    - destruct H as [->|H]; [|apply IH; assumption]. assert (X : nid_eqb (st_id s) (st_id s) = true) by (apply nid_eqb_eq; reflexivity). congruence.
  Qed.
  (** The unit of a stage: the requirements of the work, no volume larger. *)
  Definition narrows (r r' : req) : Prop := r_kind r' = r_kind r /\ r_min r' = r_min r /\ r_max r' = r_max r /\ 0 <= r_volume r' <= r_volume r.
  Lemma stage_amount w s j : In s (stages w) -> amount 0 j (st_amounts s) <= amount 0 j (map r_volume (u_reqs (pj_unit p w)) :: pj_counts p w).
  Proof.
    intros Hs. destruct (Tot w) as [_ T]. rewrite <- T. assert (N : forall s, In s (stages w) -> 0 <= amount 0 j (st_amounts s)) by (intros s0 H0; apply (Am w s0 H0)).
    revert Hs N. clear. generalize (stages w). intros l. induction l as [|x l IH]; intros H N; [destruct H|]. cbn [total_amount fold_right]. fold (total_amount 0 j l).
    assert (X : 0 <= total_amount 0 j l).
    { clear - N. induction l as [|y l IH]; [cbn; lia|]. cbn [total_amount fold_right]. fold (total_amount 0 j l).
      assert (A := N y (or_intror (or_introl eq_refl))). assert (B : 0 <= total_amount 0 j l); [|lia]. apply IH. intros s [H|H]; apply N; [left; exact H|right; right; exact H]. }
    destruct H as [->|H]; [lia|]. assert (Y := N x (or_introl eq_refl)). specialize (IH H (fun s Hs => N s (or_intror Hs))). lia.
  Qed.
  Lemma unit_of_stage s : In s all -> exists reqs v, g_unit g (code (st_id s)) = WU (u_service (pj_unit p (fst (st_id s)))) reqs v /\ 0 <= v /\
    Forall2 narrows (u_reqs (pj_unit p (fst (st_id s)))) reqs.
  Proof.
    intros Hs. apply in_all in Hs as Hs'. destruct Hs' as [Hw Hst]. cbn [g stage_graph g_unit]. unfold stage_unit. rewrite decode_code, (find_stage s Hs).
    eexists. eexists. split; [reflexivity|]. destruct (Am _ s Hst) as (A1 & A2 & A3). split.
    - unfold qint. destruct (pk_amounts _ _ _ _ _ Hp (fst (st_id s))) as (_ & _ & V). apply Z.quot_pos; [|lia].
      destruct (st_share s) as [a b]. unfold Qle in A1. cbn in *. nia.
    - assert (E0 : length (hd [] (st_amounts s)) = length (u_reqs (pj_unit p (fst (st_id s))))).
      { cbn [shape map] in A2. destruct (st_amounts s) as [|l m]; [discriminate|]. cbn [hd]. cbn [shape map] in A2. injection A2 as A2 _. rewrite A2. apply map_length. }
      assert (E1 : forall j, 0 <= nth j (hd [] (st_amounts s)) 0 <= nth j (map r_volume (u_reqs (pj_unit p (fst (st_id s))))) 0).
      { intros j. assert (X := A3 0%nat j). assert (Y := stage_amount _ s j Hst). unfold amount in X, Y. cbn [nth] in Y.
        destruct (st_amounts s) as [|l m]; [discriminate|]. cbn [nth hd] in *. lia. }
      revert E0 E1. generalize (hd [] (st_amounts s)). generalize (u_reqs (pj_unit p (fst (st_id s)))). clear. intros l.
      induction l as [|r l IH]; intros [|a m] E0 E1; try discriminate; cbn [zip_with]; [constructor|]. constructor.
      + unfold narrows, with_volume. cbn. assert (X := E1 0%nat). cbn in X. repeat split; lia.
      + apply IH; [cbn in E0; lia|]. intros j. exact (E1 (S j)).
  Qed.
  Lemma unit_cases n : (exists s, In s all /\ n = code (st_id s)) \/ (~ In n codes /\ g_unit g n = WU true [] 0).
  Proof.
    destruct (in_dec Nat.eq_dec n codes) as [H|H].
    - left. apply in_codes in H as (s & H & E). exists s. split; [exact H|]. rewrite <- E, code_decode. reflexivity.
    - right. split; [exact H|]. cbn [g stage_graph g_unit]. unfold stage_unit.
      destruct (find (fun s => nid_eqb (st_id s) (decode n)) all) as [s|] eqn:E; [|reflexivity]. exfalso. apply find_some in E as [E1 E2].
      apply nid_eqb_eq in E2. apply H. apply in_codes. exists s. auto.
  Qed.
  (** *** Edges *)
  Lemma in_edges e : In e (g_edges g) <-> exists ne, In ne edges /\ e = Ed (code (ne_from ne)) (code (ne_to ne)) (qint (ne_lag ne)) (ne_type ne).
  Proof. cbn [g stage_graph g_edges]. rewrite in_map_iff. split; intros (ne & A & B); exists ne; auto. Qed.
  Lemma edge_in ne : In ne edges -> linked g (code (ne_from ne)) (code (ne_to ne)).
  Proof. intros H. eexists. split; [apply in_edges; exists ne; split; [exact H|reflexivity]|]. auto. Qed.
  Lemma linked_depends x y : linked g x y <-> depends_on g x y.
  Proof.
    split.
    - intros (e & H & E1 & E2). exists e. split; [exact H|]. split; [|auto]. apply in_edges in H as (ne & Hne & ->). cbn [e_type].
      destruct (proj1 (Ty ne Hne)) as [-> | ->]; reflexivity.
    - intros (e & H & _ & E1 & E2). exists e. auto.
  Qed.
  Lemma linked_inv x y : linked g x y -> exists ne, In ne edges /\ x = code (ne_from ne) /\ y = code (ne_to ne) /\ comes_before codes x y.
  Proof.
    intros (e & H & <- & <-). apply in_edges in H as (ne & Hne & ->). exists ne. split; [exact Hne|]. split; [reflexivity|]. split; [reflexivity|]. cbn [e_from e_to].
    destruct (proj2 (Ty ne Hne)) as (a & b & c & E). exists (map code a), (map code b), (map code c). unfold codes. rewrite E, map_app. cbn [map]. rewrite map_app. reflexivity.
  Qed.
  Lemma linked_in x y : linked g x y -> In x codes /\ In y codes.
  Proof. intros H. apply linked_inv in H as (ne & _ & _ & _ & H). apply comes_before_in in H. exact H. Qed.
  Lemma linked_acyclic : acyclic (linked g).
  Proof.
    apply (topological_acyclic _ codes codes_nodup); [|apply linked_in]. intros x y H _ _. apply linked_inv in H as (_ & _ & _ & _ & H). exact H.
  Qed.
  Lemma depends_acyclic : acyclic (depends_on g).
  Proof. intros x H. apply (linked_acyclic x). revert H. apply path_incl. intros a b. apply linked_depends. Qed.
  Lemma stages_nonempty w : exists s l, stages w = s :: l.
  Proof. destruct (Ids w) as (k & E & _). destruct (stages w) as [|s l]; [destruct (map _ (seq 0 k)); discriminate|eauto]. Qed.
  Lemma stages_last w : exists s l, stages w = l ++ [s] /\ st_id s = (w, None).
  Proof.
    destruct (Ids w) as (k & E & _). destruct (stages w) as [|s l _] using rev_ind; [destruct (map _ (seq 0 k)); discriminate|].
    rewrite map_app in E. cbn [map] in E. apply app_inj_tail in E as [_ E]. eauto.
  Qed.
  Lemma ends_id w i : ends_with (stages w) i <-> i = (w, None).
  Proof.
    destruct (stages_last w) as (s & l & E & Es). split.
    - intros (s' & l' & E' & <-). rewrite E in E'. apply app_inj_tail in E' as [_ <-]. exact Es.
    - intros ->. exists s, l. auto.
  Qed.
  Lemma unsplit w : (forall e b, In e (pj_edges p) -> ~ divides use_lag w e b) -> exists s, stages w = [s] /\ st_id s = (w, None).
  Proof.
    intros H. destruct (Ids w) as (k & E & Hk). apply Hk in H. subst k. cbn [seq map app] in E.
    destruct (stages w) as [|s [|s' l]]; try discriminate. cbn in E. injection E as E. eauto.
  Qed.
  Lemma start_unsplit : exists s, stages (pj_start p) = [s] /\ st_id s = (pj_start p, None).
  Proof.
    apply unsplit. intros e b He. destruct (pk_ends _ _ _ _ _ Hp e He) as (A & B & C). unfold divides. destruct b; [intros [X _]; contradiction|].
    intros [X Y]. assert (T := C (or_introl X)). rewrite T in Y. destruct Y as [Y|[_ Y]]; discriminate.
  Qed.
  Lemma finish_unsplit : exists s, stages (pj_finish p) = [s] /\ st_id s = (pj_finish p, None).
  Proof.
    apply unsplit. intros e b He. destruct (pk_ends _ _ _ _ _ Hp e He) as (A & B & C). unfold divides. destruct b; [|intros [X _]; contradiction].
    intros [X Y]. assert (T := C (or_intror X)). rewrite T in Y. destruct Y as [Y|[_ Y]]; discriminate.
  Qed.
  Lemma last_in w : In w (pj_nodes p) -> In (code (w, None)) codes.
  Proof.
    intros Hw. destruct (stages_last w) as (s & l & E & Es). apply in_codes. exists s. rewrite decode_code. split; [|auto]. apply in_all. rewrite Es. cbn [fst].
    split; [exact Hw|]. rewrite E. apply in_or_app. right. left. reflexivity.
  Qed.
  (** The end of a start part is the first stage of the later work. *)
  Lemma start_part_to e ne : start_part use_lag (pj_volume p) stages e ne -> starts_with (stages (re_to e)) (ne_to ne).
  Proof. intros H. inversion H; subst; assumption. Qed.
  Lemma has_parent n : In n codes -> n = code (pj_start p, None) \/ exists q, linked g q n.
  Proof.
    intros H. apply in_codes in H as (s & Hs & E). assert (En : n = code (st_id s)) by (rewrite <- E, code_decode; reflexivity). subst n. clear E.
    apply in_all in Hs as Hs'. destruct Hs' as [Hw Hst]. set (w := fst (st_id s)) in *. apply in_split in Hst as (l1 & l2 & El).
    destruct l1 as [|x l1 _] using rev_ind.
    - destruct (Nat.eq_dec w (pj_start p)) as [Ew|Nw].
      + left. destruct start_unsplit as (s0 & E0 & E1). rewrite <- Ew in E0. rewrite El in E0. injection E0 as -> _. rewrite E1. reflexivity.
      + right. destruct (pk_parents _ _ _ _ _ Hp w Hw Nw) as (e & He & Eto & Hd).
        destruct (proj1 (Rep e He)) as (ne & Hne & P); [intros T; rewrite T in Hd; discriminate|].
        exists (code (ne_from ne)). apply start_part_to in P. destruct P as (s' & l' & E' & Ei). rewrite Eto, El in E'. injection E' as <- _. rewrite Ei. apply edge_in, Hne.
    - right. exists (code (st_id x)).
      assert (Hl : In (NE (st_id x) (st_id s) 0%Q IFS) edges).
      { apply (Lnk w); [exact Hw|]. exists l1, x, s, l2. split; [|reflexivity]. rewrite El, <- app_assoc. reflexivity. }
      exact (edge_in _ Hl).
  Qed.
  Lemma stage_to_last w s : In w (pj_nodes p) -> In s (stages w) -> path0 (depends_on g) (code (st_id s)) (code (w, None)).
  Proof.
    intros Hw Hs. destruct (stages_last w) as (z & l & E & Ez). rewrite <- Ez. apply in_split in Hs as (l1 & l2 & El).
    revert l1 s El. induction l2 as [|y l2 IH]; intros l1 s El.
    - rewrite E in El. apply app_inj_tail in El as [_ ->]. apply rt_refl.
    - assert (Hl : In (NE (st_id s) (st_id y) 0%Q IFS) edges) by (apply (Lnk w); [exact Hw|]; exists l1, s, y, l2; auto).
      eapply rt_trans; [apply rt_step, linked_depends; exact (edge_in _ Hl)|]. cbn [ne_to].
      apply (IH (l1 ++ [s]) y). rewrite El, <- app_assoc. reflexivity.
  Qed.
  Lemma reaches_finish n : In n codes -> n = code (pj_finish p, None) \/ path (depends_on g) n (code (pj_finish p, None)).
  Proof.
    assert (G : forall post pre w s, pj_nodes p = pre ++ w :: post -> In s (stages w) -> path0 (depends_on g) (code (st_id s)) (code (pj_finish p, None))).
    { intros post. induction post as [post IH] using (induction_ltof1 _ (@length nat)). unfold ltof in IH. intros pre w s Ep Hs.
      assert (Hw : In w (pj_nodes p)) by (rewrite Ep; apply in_or_app; right; left; reflexivity).
      eapply rt_trans; [apply (stage_to_last w s Hw Hs)|].
      destruct (Nat.eq_dec w (pj_finish p)) as [->|Nw]; [apply rt_refl|].
      destruct (pk_children _ _ _ _ _ Hp w Hw Nw) as (e & He & Efrom & Hd).
      (* a stage of the child that waits for the last stage *)
      assert (C : exists s', In s' (stages (re_to e)) /\ linked g (code (w, None)) (code (st_id s'))).
      { destruct (Rep e He) as [R1 R2]. destruct (re_type e) eqn:T; try discriminate.
        - destruct R1 as (ne & Hne & P); [discriminate|]. inversion P as [a f T' X1 X2 EE|a f T' X1 X2 EE|a f U T' X1 X2 EE|a f U T' X1 X2 EE|a f q U T' _ X1 X2 EE]; subst ne; try congruence.
          + destruct X2 as (s' & l' & E' & Ei). exists s'. split; [rewrite E'; left; reflexivity|]. rewrite Efrom in X1. apply ends_id in X1. subst a. rewrite Ei. exact (edge_in _ Hne).
          + destruct T'; congruence.
        - assert (Eul : use_lag = true \/ use_lag = false) by (destruct use_lag; auto). destruct Eul as [Eul|Eul].
          + destruct R2 as (ne & Hne & P); [auto|]. inversion P as [a z U T' X1 X2 EE|a z q U T' _ X1 X2 EE]; subst ne; try congruence.
            destruct X2 as (l1 & s' & l2 & E' & Ei & _). exists s'. split; [rewrite E'; apply in_or_app; right; left; reflexivity|]. rewrite Efrom in X1. apply ends_id in X1. subst a. rewrite Ei. exact (edge_in _ Hne).
          + destruct R1 as (ne & Hne & P); [discriminate|]. inversion P as [a f T' X1 X2 EE|a f T' X1 X2 EE|a f U T' X1 X2 EE|a f U T' X1 X2 EE|a f q U T' _ X1 X2 EE]; subst ne; try congruence.
            destruct X2 as (s' & l' & E' & Ei). exists s'. split; [rewrite E'; left; reflexivity|]. rewrite Efrom in X1. apply ends_id in X1. subst a. rewrite Ei. exact (edge_in _ Hne).
        - destruct R1 as (ne & Hne & P); [discriminate|]. inversion P as [a f T' X1 X2 EE|a f T' X1 X2 EE|a f U T' X1 X2 EE|a f U T' X1 X2 EE|a f q U T' _ X1 X2 EE]; subst ne; try congruence.
          + destruct X2 as (s' & l' & E' & Ei). exists s'. split; [rewrite E'; left; reflexivity|]. rewrite Efrom in X1. apply ends_id in X1. subst a. rewrite Ei. exact (edge_in _ Hne).
          + destruct T'; congruence. }
      destruct C as (s' & Hs' & Hl). eapply rt_trans; [apply rt_step, linked_depends; exact Hl|].
      assert (O := pk_order _ _ _ _ _ Hp e He). rewrite Efrom in O. destruct O as (q1 & q2 & q3 & O).
      assert (Q : pre = q1 /\ post = q2 ++ re_to e :: q3).
      { rewrite Ep in O. assert (N := pk_nodup _ _ _ _ _ Hp). rewrite Ep in N. clear - O N.
        assert (X := split_unique (fun x : nat => x) pre q1 w w post (q2 ++ re_to e :: q3)). rewrite map_id in X. destruct (X N O eq_refl) as [-> _].
        apply app_inv_head in O. injection O as O. auto. }
      destruct Q as [-> Q]. apply (IH q3) with (pre := q1 ++ w :: q2) (w := re_to e); [rewrite Q, app_length; cbn; lia|rewrite Ep, Q, <- app_assoc; reflexivity|exact Hs']. }
    intros H. apply in_codes in H as (s & Hs & E). assert (En : n = code (st_id s)) by (rewrite <- E, code_decode; reflexivity). subst n.
    apply in_all in Hs as [Hw Hst]. apply in_split in Hw as (pre & post & Ep). apply path0_path. exact (G post pre _ s Ep Hst).
  Qed.
  Lemma restructured_graph : exists w, make_work_graph g (code (pj_start p, None)) (code (pj_finish p, None)) = Ends w /\
    wg_graph w = g /\ Permutation (wg_nodes w) codes /\ topological (linked g) (wg_nodes w).
  Proof.
    destruct (topological_traversal_correct g codes (code (pj_start p, None)) linked_acyclic linked_in codes_nodup (last_in _ (pk_start _ _ _ _ _ Hp)) has_parent) as (l & E & P & T).
    unfold make_work_graph. rewrite E. eexists. split; [reflexivity|]. auto.
  Qed.
  (** *** Works of stages *)
  Notation joined_works := (joined_works p).
  Lemma part_works e ne : start_part use_lag (pj_volume p) stages e ne \/ finish_part use_lag (pj_volume p) stages e ne ->
    fst (ne_from ne) = re_from e /\ fst (ne_to ne) = re_to e.
  Proof.
    assert (St : forall w i, starts_with (stages w) i -> fst i = w) by (intros w i (s & l & E & <-); apply stage_work; rewrite E; left; reflexivity).
    assert (En : forall w i, ends_with (stages w) i -> fst i = w) by (intros w i H; apply ends_id in H; subst i; reflexivity).
    assert (Da : forall w i q, done_after (stages w) i q -> fst i = w) by (intros w i q (l1 & s & l2 & E & <- & _); apply stage_work; rewrite E; apply in_or_app; right; left; reflexivity).
    assert (Db : forall w i q, done_before (stages w) i q -> fst i = w) by (intros w i q (l1 & s & l2 & E & <- & _); apply stage_work; rewrite E; apply in_or_app; right; left; reflexivity).
    intros [H|H]; inversion H; subst ne; cbn [ne_from ne_to]; eauto.
  Qed.
  Lemma edge_works ne : In ne edges -> (fst (ne_from ne) = fst (ne_to ne) /\ ne_type ne = IFS /\ qint (ne_lag ne) = 0) \/
    exists e, In e (pj_edges p) /\ re_from e = fst (ne_from ne) /\ re_to e = fst (ne_to ne) /\ (ne_type ne = IFS -> re_type e = IFS) /\
      qint (ne_lag ne) <= Z.max 0 (Qceiling (re_lag e)) /\ (ne_type ne = IFS -> qint (ne_lag ne) = 0).
  Proof.
    intros H. destruct (Src ne H) as [(w & Hw & (l1 & s & s' & l2 & E & ->))|(e & He & P)].
    - left. cbn [ne_from ne_to ne_type ne_lag]. rewrite (stage_work w s), (stage_work w s'); [auto| |]; rewrite E; apply in_or_app; right; [right; left|left]; reflexivity.
    - right. exists e. destruct (part_works e ne P) as [-> ->]. split; [exact He|]. split; [reflexivity|]. split; [reflexivity|].
      destruct P as [P|P]; inversion P; subst ne; cbn [ne_type ne_lag]; (split; [congruence|]); (split; [|try discriminate; try reflexivity]); try (cbn; lia).
      unfold qint, inject_Z. cbn [Qnum Qden]. rewrite Z.quot_1_r. lia.
  Qed.
  Lemma edge_lag_nonneg ne : In ne edges -> 0 <= qint (ne_lag ne).
  Proof.
    intros H. destruct (Src ne H) as [(w & Hw & (l1 & s & s' & l2 & E & ->))|(e & He & [P|P])]; [cbn; lia| |inversion P; subst ne; cbn; lia].
    inversion P as [a f Te X1 X2 EE|a f Te X1 X2 EE|a f U Te X1 X2 EE|a f U Te X1 X2 EE|a f q U Te LP X1 X2 EE]; subst ne; cbn [ne_lag]; try (cbn; lia).
    rewrite qint_Z. assert (L := Qle_ceiling (re_lag e)). assert (M := pk_lags _ _ _ _ _ Hp e He Te). rewrite Zle_Qle. apply (Qle_trans _ (re_lag e)); [exact M|exact L].
  Qed.
  Lemma inseparable_works x y : inseparable g x y -> In x codes /\ In y codes /\ (fst (decode x) = fst (decode y) \/ joined_works (fst (decode x)) (fst (decode y))).
  Proof.
    intros (e & He & T & <- & <-). assert (L : linked g (e_from e) (e_to e)) by (exists e; auto). apply linked_in in L as [L1 L2].
    split; [exact L1|]. split; [exact L2|]. apply in_edges in He as (ne & Hne & ->). cbn [e_type e_from e_to] in *. rewrite !decode_code.
    destruct (edge_works ne Hne) as [(E & _)|(e & He & E1 & E2 & T' & _)]; [left; exact E|]. right. exists e. rewrite E1, E2. auto.
  Qed.
  Lemma depends_works x y : depends_on g x y -> fst (decode x) = fst (decode y) \/ exists e, In e (pj_edges p) /\ re_from e = fst (decode x) /\ re_to e = fst (decode y).
  Proof.
    intros H. apply linked_depends, linked_inv in H as (ne & Hne & -> & -> & _). rewrite !decode_code.
    destruct (edge_works ne Hne) as [(E & _)|(e & He & E1 & E2 & _)]; [left; exact E|right; eauto].
  Qed.
  Lemma inseparable_single x x' y y' : inseparable g x y -> inseparable g x' y' -> (y = y' -> x = x') /\ (x = x' -> y = y').
  Proof.
    intros (e & He & T & <- & <-) (e' & He' & T' & <- & <-). apply in_edges in He as (ne & Hne & ->). apply in_edges in He' as (ne' & Hne' & ->). cbn [e_type e_from e_to] in *.
    destruct (restructure_chains (pj_rgraph p) use_lag all edges project_restructurable R (pk_chains _ _ _ _ _ Hp) ne ne' Hne Hne' T T') as [A B].
    split; intros E; apply code_inj in E; f_equal; auto.
  Qed.
  Lemma stage_graph_ok nodes : Permutation nodes codes -> graph_ok g nodes.
  Proof.
    intros P. constructor.
    - eapply Permutation_NoDup; [apply Permutation_sym; exact P|apply codes_nodup].
    - intros e He. assert (L : linked g (e_from e) (e_to e)) by (exists e; auto). apply linked_in in L as [L1 L2]. split; eapply Permutation_in; [apply Permutation_sym; exact P|exact L1|apply Permutation_sym; exact P|exact L2].
    - intros e He. apply in_edges in He as (ne & Hne & ->). cbn [e_type]. destruct (proj1 (Ty ne Hne)) as [-> | ->]; reflexivity.
    - intros x x' y H1 H2. apply (inseparable_single x x' y y H1 H2). reflexivity.
    - intros x y y' H1 H2. apply (inseparable_single x x y y' H1 H2). reflexivity.
    - apply depends_acyclic.
  Qed.
  (** *** Requirements *)
  Definition stricter (r r' : req) : Prop := r_kind r = r_kind r' /\ r_min r' <= r_min r /\ r_max r <= r_max r'.
  Lemma stricter_trans a b c : Forall2 stricter a b -> Forall2 stricter b c -> Forall2 stricter a c.
  Proof.
    intros H. revert c. induction H as [|x y l m Hxy H IH]; intros c Hc; inversion Hc as [|? z ? n Hyz Hc']; subst; constructor; [|apply IH; assumption].
    unfold stricter in *. destruct Hxy as (-> & ? & ?), Hyz as (-> & ? & ?). repeat split; lia.
  Qed.
  Lemma stricter_refl a : Forall2 stricter a a.
  Proof. induction a; constructor; [repeat split; lia|assumption]. Qed.
  Lemma stage_reqs n : In n codes -> Forall2 narrows (u_reqs (pj_unit p (fst (decode n)))) (u_reqs (g_unit g n)) /\
    u_service (g_unit g n) = u_service (pj_unit p (fst (decode n))) /\ 0 <= u_volume (g_unit g n).
  Proof.
    intros H. apply in_codes in H as (s & Hs & E). assert (En : n = code (st_id s)) by (rewrite <- E, code_decode; reflexivity). rewrite E. subst n.
    destruct (unit_of_stage s Hs) as (reqs & v & -> & V & F). auto.
  Qed.
  Lemma chain_step x y : inseparable g x y -> Forall2 stricter (u_reqs (g_unit g x)) (u_reqs (g_unit g y)).
  Proof.
    intros H. destruct (inseparable_works x y H) as (Hx & Hy & C). destruct (stage_reqs x Hx) as (Fx & _), (stage_reqs y Hy) as (Fy & _).
    assert (A : forall a b, Forall2 narrows a b -> Forall2 stricter a b) by (intros a b F; induction F as [|r r' a b (K1 & K2 & K3 & _)]; constructor; [unfold stricter; rewrite K1, K2, K3; repeat split; lia|assumption]).
    assert (B : forall a b, Forall2 narrows a b -> Forall2 stricter b a) by (intros a b F; induction F as [|r r' a b (K1 & K2 & K3 & _)]; constructor; [unfold stricter; rewrite K1, K2, K3; repeat split; lia|assumption]).
    apply (stricter_trans _ (u_reqs (pj_unit p (fst (decode x))))); [apply B, Fx|].
    apply (stricter_trans _ (u_reqs (pj_unit p (fst (decode y))))); [|apply A, Fy].
    destruct C as [->|(e & He & T & <- & <-)]; [apply stricter_refl|]. apply (pk_chain_reqs _ _ _ _ _ Hp e He T).
  Qed.
  Lemma chain_reqs x y : in_chain g x y -> Forall2 stricter (u_reqs (g_unit g x)) (u_reqs (g_unit g y)).
  Proof.
    induction 1 as [x y H|x|x y z _ IH1 _ IH2]; [apply chain_step, H|apply stricter_refl|eapply stricter_trans; eauto].
  Qed.
  Lemma chains_wf_g : chains_wf g.
  Proof. apply (graph_chains g codes). apply stage_graph_ok, Permutation_refl. Qed.
  Lemma stage_chain_accepts : chain_accepts g.
  Proof.
    intros n c m r Hc Hm Hr.
    assert (F : Forall2 stricter (u_reqs (g_unit g n)) (u_reqs (g_unit g m))).
    { destruct (inseparable_parent g n) as [q|] eqn:Eq.
      - unfold chain_of in Hc. rewrite Eq in Hc. destruct (inseparable_son g n); injection Hc as <-; destruct Hm as [<-|[]]; apply stricter_refl.
      - destruct (inseparable_chain_correct g n chains_wf_g) as (c' & Ec & _ & M & _); [apply parent_none; exact Eq|].
        rewrite Hc in Ec. injection Ec as <-. apply chain_reqs, M, Hm. }
    clear - F Hr. induction F as [|a b l m' (K1 & K2 & K3) F IH]; [destruct Hr|]. destruct Hr as [<-|Hr].
    - exists a. split; [left; reflexivity|]. auto.
    - destruct (IH Hr) as (r' & A & B). exists r'. split; [right; exact A|exact B].
  Qed.
  Lemma prio_path prio : (forall w, prio w = pj_prio p w) -> forall x y, path0 (depends_on g) x y -> prio (fst (decode x)) <= prio (fst (decode y)).
  Proof.
    intros HP x y H. induction H as [x y H|x|x y z _ IH1 _ IH2]; [|lia|lia].
    destruct (depends_works x y H) as [->|(e & He & <- & <-)]; [lia|]. rewrite !HP. apply (pk_prio _ _ _ _ _ Hp e He).
  Qed.
  Lemma stage_pipeline_ok nodes prio spec : Permutation nodes codes -> (forall w, prio w = pj_prio p w) ->
    pipeline_ok g nodes table (fun n => prio (fst (decode n))) spec apt D Lg.
  Proof.
    intros P HP. constructor.
    - apply stage_graph_ok, P.
    - intros u v Huv m Hm. exists v. split; [apply rt_refl|]. etransitivity; [|apply (prio_path prio HP u m Hm)].
      destruct (inseparable_works u v Huv) as (_ & _ & [->|(e & He & T & <- & <-)]); [lia|]. rewrite !HP. assert (X := proj2 (pk_prio _ _ _ _ _ Hp e He) T). lia.
    - intros n. destruct (in_dec Nat.eq_dec n codes) as [H|H].
      + destruct (stage_reqs n H) as (F & _). destruct (pk_reqs _ _ _ _ _ Hp (fst (decode n))) as [N B]. split.
        * replace (map r_kind (u_reqs (g_unit g n))) with (map r_kind (u_reqs (pj_unit p (fst (decode n))))); [exact N|].
          clear - F. induction F as [|a b l m (K & _) F IH]; [reflexivity|]. cbn [map]. rewrite K, IH. reflexivity.
        * clear - F B. induction F as [|a b l m (_ & K2 & K3 & _) F IH]; [constructor|]. inversion B; subst. constructor; [rewrite K2, K3; assumption|auto].
      + destruct (unit_cases n) as [(s & Hs & ->)|[_ ->]]; [exfalso; apply H, in_codes; exists s; rewrite decode_code; auto|]. split; constructor.
    - intros n. unfold volume_of. destruct (in_dec Nat.eq_dec n codes) as [H|H]; [apply (stage_reqs n H)|].
      destruct (unit_cases n) as [(s & Hs & ->)|[_ ->]]; [exfalso; apply H, in_codes; exists s; rewrite decode_code; auto|]. cbn. lia.
    - exact stage_chain_accepts.
    - intros h m _ Hm. assert (F := chain_reqs h m Hm). clear - F. induction F as [|a b l l' (K & _) F IH]; [reflexivity|]. cbn [map]. rewrite K, IH. reflexivity.
    - intros n Hs. destruct (in_dec Nat.eq_dec n codes) as [H|H].
      + destruct (stage_reqs n H) as (F & S1 & _). rewrite S1 in Hs. rewrite (pk_service _ _ _ _ _ Hp _ Hs) in F. clear - F. destruct (u_reqs (g_unit g n)); [reflexivity|inversion F].
      + destruct (unit_cases n) as [(s & Hs' & ->)|[_ ->]]; [exfalso; apply H, in_codes; exists s; rewrite decode_code; auto|]. reflexivity.
    - intros e He T. apply in_edges in He as (ne & Hne & ->). cbn [e_type e_lag] in *. destruct (edge_works ne Hne) as [(_ & _ & ->)|(e & _ & _ & _ & _ & _ & E)]; [lia|]. rewrite (E T). lia.
    - apply Hp.
    - intros n r c Hr. destruct (in_dec Nat.eq_dec n codes) as [H|H].
      + destruct (stage_reqs n H) as (F & _).
        assert (X : exists r0, In r0 (u_reqs (pj_unit p (fst (decode n)))) /\ narrows r0 r).
        { clear - F Hr. induction F as [|a b l m K F IH]; [destruct Hr|]. destruct Hr as [<-|Hr]; [exists a; split; [left; reflexivity|exact K]|].
          destruct (IH Hr) as (r0 & A & B). exists r0. split; [right; exact A|exact B]. }
        destruct X as (r0 & Hr0 & K1 & _ & _ & K4 & K5). destruct (pk_productivity _ _ _ _ _ Hp _ r0 c Hr0) as (f & F1 & F2 & F3). exists f. rewrite K1. split; [exact F1|]. split; [exact F2|].
        eapply Qle_trans; [|exact F3]. rewrite <- Zle_Qle. exact K5.
      + destruct (unit_cases n) as [(s & Hs & ->)|[_ E]]; [exfalso; apply H, in_codes; exists s; rewrite decode_code; auto|]. rewrite E in Hr. destruct Hr.
    - destruct (pk_horizon _ _ _ _ _ Hp) as (H1 & H2 & H3 & H4). split; [exact H1|]. split; [exact H2|]. split.
      + intros e He. apply in_edges in He as (ne & Hne & ->). cbn [e_lag]. destruct (edge_works ne Hne) as [(_ & _ & ->)|(e & He & _ & _ & _ & E & _)]; [lia|]. specialize (H3 e He). lia.
      + assert (L := codes_length). rewrite (Permutation_length P). assert (Z.of_nat (S (length codes)) * (1 + D + Lg) <= (1 + Z.of_nat (length (pj_nodes p)) + 2 * Z.of_nat (length (pj_edges p))) * (1 + D + Lg)); [|lia].
        apply Z.mul_le_mono_nonneg_r; [lia|]. lia.
  Qed.
  (** *** Chains *)
  Lemma stage_to_last_inseparable w s : In w (pj_nodes p) -> In s (stages w) -> path0 (inseparable g) (code (st_id s)) (code (w, None)).
  Proof.
    intros Hw Hs. destruct (stages_last w) as (z & l & E & Ez). rewrite <- Ez. apply in_split in Hs as (l1 & l2 & El).
    revert l1 s El. induction l2 as [|y l2 IH]; intros l1 s El.
    - rewrite E in El. apply app_inj_tail in El as [_ ->]. apply rt_refl.
    - assert (Hl : In (NE (st_id s) (st_id y) 0%Q IFS) edges) by (apply (Lnk w); [exact Hw|]; exists l1, s, y, l2; auto).
      eapply rt_trans; [apply rt_step|apply (IH (l1 ++ [s]) y); rewrite El, <- app_assoc; reflexivity].
      eexists. split; [apply in_edges; eexists; split; [exact Hl|reflexivity]|]. auto.
  Qed.
  Lemma head_stage nodes x : Permutation nodes codes -> is_head g nodes x -> exists s l, stages (fst (decode x)) = s :: l /\ x = code (st_id s) /\
    In (fst (decode x)) (pj_nodes p) /\ ~ exists u, joined_works u (fst (decode x)).
  Proof.
    intros P [Hx Hno]. apply (Permutation_in _ P) in Hx. apply in_codes in Hx as (s & Hs & E). assert (Ex : x = code (st_id s)) by (rewrite <- E, code_decode; reflexivity).
    rewrite E. apply in_all in Hs as [Hw Hst]. set (w := fst (st_id s)) in *. apply in_split in Hst as (l1 & l2 & El).
    assert (E1 : l1 = []).
    { destruct l1 as [|y l1 _] using rev_ind; [reflexivity|exfalso]. apply (Hno (code (st_id y))).
      assert (Hl : In (NE (st_id y) (st_id s) 0%Q IFS) edges) by (apply (Lnk w); [exact Hw|]; exists l1, y, s, l2; split; [rewrite El, <- app_assoc; reflexivity|reflexivity]).
      eexists. split; [apply in_edges; eexists; split; [exact Hl|reflexivity]|]. rewrite Ex. auto. }
    subst l1. exists s, l2. split; [exact El|]. split; [exact Ex|]. split; [exact Hw|]. intros (u & e & He & T & _ & Eto).
    destruct (proj1 (Rep e He)) as (ne & Hne & Q); [rewrite T; discriminate|].
    inversion Q as [a f T' X1 X2 EE|a f T' X1 X2 EE|a f U T' X1 X2 EE|a f U T' X1 X2 EE|a f q U T' _ X1 X2 EE]; subst ne; try congruence; [|destruct T'; congruence].
    destruct X2 as (s' & l' & E' & Ei). rewrite Eto, El in E'. injection E' as <- _. apply (Hno (code a)).
    eexists. split; [apply in_edges; eexists; split; [exact Hne|reflexivity]|]. cbn [e_type e_from e_to ne_from ne_to ne_type]. rewrite Ex, Ei. auto.
  Qed.
  Lemma chain_group x y : in_chain g x y -> path0 joined_works (fst (decode x)) (fst (decode y)).
  Proof.
    induction 1 as [x y H|x|x y z _ IH1 _ IH2]; [|apply rt_refl|eapply rt_trans; eauto].
    destruct (inseparable_works x y H) as (_ & _ & [->|J]); [apply rt_refl|apply rt_step, J].
  Qed.
  Lemma prerequisite_works nodes x y : Permutation nodes codes -> is_head g nodes x -> is_head g nodes y -> prerequisite g x y ->
    fst (decode x) <> fst (decode y) /\
    exists e, In e (pj_edges p) /\ path0 joined_works (fst (decode x)) (re_from e) /\ path0 joined_works (fst (decode y)) (re_to e).
  Proof.
    intros P Hx Hy (Nxy & u & v & Hd & Hu & Hv). split.
    - intros E. destruct (head_stage nodes x P Hx) as (s & l & E1 & X1 & _), (head_stage nodes y P Hy) as (s' & l' & E1' & X1' & _).
      rewrite E, E1' in E1. injection E1 as <- _. congruence.
    - destruct (depends_works u v Hd) as [E|(e & He & E1 & E2)]; [exfalso|exists e; rewrite E1, E2; split; [exact He|]; split; apply chain_group; assumption].
      apply linked_depends, linked_in in Hd as [Du Dv]. apply in_codes in Du as (su & Hsu & Eu). apply in_codes in Dv as (sv & Hsv & Ev).
      assert (Xu : u = code (st_id su)) by (rewrite <- Eu, code_decode; reflexivity). assert (Xv : v = code (st_id sv)) by (rewrite <- Ev, code_decode; reflexivity).
      apply in_all in Hsu as [W1 S1]. apply in_all in Hsv as [W2 S2].
      assert (A1 : path0 (inseparable g) x (code (fst (decode v), None))).
      { rewrite <- E, Eu. eapply rt_trans; [exact Hu|]. rewrite Xu. apply stage_to_last_inseparable; assumption. }
      assert (A2 : path0 (inseparable g) y (code (fst (decode v), None))).
      { rewrite Ev. eapply rt_trans; [exact Hv|]. rewrite Xv. apply stage_to_last_inseparable; assumption. }
      destruct (path0_connected g chains_wf_g x y _ A1 A2) as [Q|Q]; apply path0_last in Q as [Q|(q & _ & Q)]; try congruence; [apply (proj2 Hy q Q)|apply (proj2 Hx q Q)].
  Qed.
  (** *** Times *)
  Section Times.
    Variables (cs : list contractor) (spec : nat -> work_spec) (nodes : list nat) (sd : sched).
    Hypothesis HP : Permutation nodes codes.
    Hypothesis F : feasible g cs spec nodes sd.
    Hypothesis HE : forall e wu wv, In e (g_edges g) -> In (e_from e, wu) sd -> In (e_to e, wv) sd -> tadd (sw_finish wu) (e_lag e) <= sw_start wv.
    Lemma entry s : In s all -> exists x, In (code (st_id s), x) sd.
    Proof.
      intros H. assert (X : In (code (st_id s)) (map fst sd)).
      { eapply Permutation_in; [apply Permutation_sym, (fs_works _ _ _ _ _ F)|]. eapply Permutation_in; [apply Permutation_sym, HP|]. apply in_codes. exists s. rewrite decode_code. auto. }
      apply in_map_iff in X as ([n x] & E & X). cbn [fst] in E. subst n. eauto.
    Qed.
    Lemma entry_stage n x : In (n, x) sd -> exists s, In s all /\ decode n = st_id s /\ n = code (st_id s).
    Proof.
      intros H. apply (in_map fst) in H. cbn [fst] in H. apply (Permutation_in _ (fs_works _ _ _ _ _ F)), (Permutation_in _ HP), in_codes in H as (s & Hs & E).
      exists s. split; [exact Hs|]. split; [exact E|]. rewrite <- E, code_decode. reflexivity.
    Qed.
    Lemma edge_times ne x y : In ne edges -> 0 <= qint (ne_lag ne) -> In (code (ne_from ne), x) sd -> In (code (ne_to ne), y) sd -> sw_finish x <= sw_start y.
    Proof.
      intros Hne L Hx Hy. assert (A := HE _ x y (proj2 (in_edges _) (ex_intro _ ne (conj Hne eq_refl))) Hx Hy). cbn [e_lag] in A.
      destruct (fs_times _ _ _ _ _ F _ _ Hx) as [_ B]. assert (C := tadd_ge (sw_finish x) (qint (ne_lag ne)) L B). lia.
    Qed.
    (** stages of one work follow each other *)
    Lemma stage_order w : In w (pj_nodes p) -> forall l2 l1 s, stages w = l1 ++ s :: l2 -> forall x, In (code (st_id s), x) sd ->
      forall s' y, In s' l2 -> In (code (st_id s'), y) sd -> sw_finish x <= sw_start y.
    Proof.
      intros Hw. induction l2 as [|z l2 IH]; intros l1 s E x Hx s' y Hs' Hy; [destruct Hs'|].
      assert (Hl : In (NE (st_id s) (st_id z) 0%Q IFS) edges) by (apply (Lnk w); [exact Hw|]; exists l1, s, z, l2; auto).
      assert (Hz : In z all). { apply in_all. assert (Hz : In z (stages w)) by (rewrite E; apply in_or_app; right; right; left; reflexivity). rewrite (stage_work w z Hz). auto. }
      destruct (entry z Hz) as (xz & Hxz). assert (A := edge_times _ x xz Hl ltac:(cbn; lia) Hx Hxz).
      destruct Hs' as [<-|Hs'].
      - exact (edge_times _ x y Hl ltac:(cbn; lia) Hx Hy).
      - assert (B := IH (l1 ++ [s]) z ltac:(rewrite E, <- app_assoc; reflexivity) xz Hxz s' y Hs' Hy). assert (C := fs_times _ _ _ _ _ F _ _ Hxz). lia.
    Qed.
    Lemma unique_entry n x y : In (n, x) sd -> In (n, y) sd -> x = y.
    Proof.
      assert (N : NoDup (map fst sd)). { eapply Permutation_NoDup; [apply Permutation_sym, (fs_works _ _ _ _ _ F)|]. eapply Permutation_NoDup; [apply Permutation_sym, HP|apply codes_nodup]. }
      clear - N. induction sd as [|[m z] l IH]; intros H1 H2; [destruct H1|]. inversion N as [|? ? N1 N2]; subst.
      destruct H1 as [E1|H1], H2 as [E2|H2].
      - congruence.
      - exfalso. injection E1 as -> ->. apply N1. apply (in_map fst) in H2. exact H2.
      - exfalso. injection E2 as -> ->. apply N1. apply (in_map fst) in H1. exact H1.
      - apply IH; assumption.
    Qed.
    (** the entries of the first and the last stage bound those of the work *)
    Lemma work_bounds w : In w (pj_nodes p) -> forall a b xa xb, starts_with (stages w) a -> ends_with (stages w) b -> In (code a, xa) sd -> In (code b, xb) sd ->
      forall s x, In s (stages w) -> In (code (st_id s), x) sd -> sw_start xa <= sw_start x /\ sw_start x <= sw_finish x /\ sw_finish x <= sw_finish xb.
    Proof.
      intros Hw a b xa xb (sa & la & Ea & <-) (sb & lb & Eb & <-) Ha Hb s x Hs Hx.
      assert (T := fs_times _ _ _ _ _ F _ _ Hx). split; [|split; [lia|]].
      - rewrite Ea in Hs. destruct Hs as [<-|Hs]; [rewrite (unique_entry _ _ _ Ha Hx); lia|].
        assert (A := stage_order w Hw la [] sa Ea xa Ha s x Hs Hx). assert (B := fs_times _ _ _ _ _ F _ _ Ha). lia.
      - apply in_split in Hs as (l1 & l2 & El). destruct l2 as [|z l2 _] using rev_ind.
        + rewrite El in Eb. apply app_inj_tail in Eb as [_ ->]. rewrite (unique_entry _ _ _ Hb Hx). lia.
        + assert (z = sb). { rewrite El, app_comm_cons, app_assoc in Eb. apply app_inj_tail in Eb as [_ Eb]. exact Eb. } subst z.
          assert (A := stage_order w Hw (l2 ++ [sb]) l1 s El x Hx sb xb ltac:(apply in_or_app; right; left; reflexivity) Hb). assert (B := fs_times _ _ _ _ _ F _ _ Hb). lia.
    Qed.
    Lemma stage_span w : In w (pj_nodes p) -> exists a b xa xb, starts_with (stages w) a /\ ends_with (stages w) b /\ In (code a, xa) sd /\ In (code b, xb) sd /\
      work_span sd w (sw_start xa) (sw_finish xb).
    Proof.
      intros Hw. destruct (stages_nonempty w) as (sa & la & Ea). destruct (stages_last w) as (sb & lb & Eb & Ib).
      assert (Ha : In sa (stages w)) by (rewrite Ea; left; reflexivity). assert (Hb : In sb (stages w)) by (rewrite Eb; apply in_or_app; right; left; reflexivity).
      destruct (entry sa) as (xa & Xa); [apply in_all; rewrite (stage_work w sa Ha); auto|]. destruct (entry sb) as (xb & Xb); [apply in_all; rewrite (stage_work w sb Hb); auto|].
      exists (st_id sa), (st_id sb), xa, xb. assert (S1 : starts_with (stages w) (st_id sa)) by (exists sa, la; auto). assert (S2 : ends_with (stages w) (st_id sb)) by (exists sb, lb; auto).
      split; [exact S1|]. split; [exact S2|]. split; [exact Xa|]. split; [exact Xb|]. split; [|split].
      - exists (code (st_id sa)), xa. rewrite decode_code, (stage_work w sa Ha). auto.
      - exists (code (st_id sb)), xb. rewrite decode_code, (stage_work w sb Hb). auto.
      - intros n x Hn Ew. destruct (entry_stage n x Hn) as (s & Hs & E1 & ->). apply in_all in Hs as [_ Hs]. rewrite E1 in Ew. rewrite Ew in Hs.
        exact (work_bounds w Hw _ _ _ _ S1 S2 Xa Xb s x Hs Hn).
    Qed.
    Lemma part_done w q i y t : In w (pj_nodes p) -> done_after (stages w) i q -> In (code i, y) sd -> sw_finish y <= t -> done_by all sd w t q.
    Proof.
      intros Hw (l1 & s & l2 & E & <- & Q) Hy Ht. exists (l1 ++ [s]).
      assert (NW : NoDup (map st_id (stages w))). { clear - Nd Hw. unfold all in Nd. apply in_split in Hw as (a & b & E). rewrite E, map_app, concat_app, map_app in Nd. cbn [map concat] in Nd. rewrite map_app in Nd.
        apply nodup_app_r, nodup_app_l in Nd. exact Nd. }
      split; [|split].
      - rewrite E in NW. change (s :: l2) with ([s] ++ l2) in NW. rewrite app_assoc, map_app in NW. apply nodup_app_l in NW. exact NW.
      - rewrite <- Q. reflexivity.
      - intros z Hz. assert (Hzw : In z (stages w)). { rewrite E. apply in_app_or in Hz as [Hz|[<-|[]]]; apply in_or_app; [left; exact Hz|right; left; reflexivity]. }
        assert (Hza : In z all) by (apply in_all; rewrite (stage_work w z Hzw); auto). split; [exact Hza|]. split; [apply stage_work, Hzw|].
        destruct (entry z Hza) as (x & Hx). exists x. split; [exact Hx|]. apply in_app_or in Hz as [Hz|[<-|[]]].
        + apply in_split in Hz as (m1 & m2 & Em). assert (A := stage_order w Hw (m2 ++ s :: l2) m1 z ltac:(rewrite E, Em, <- app_assoc; reflexivity) x Hx s y ltac:(apply in_or_app; right; left; reflexivity) Hy).
          assert (B := fs_times _ _ _ _ _ F _ _ Hy). lia.
        + rewrite (unique_entry _ _ _ Hx Hy). exact Ht.
    Qed.
    Lemma part_left w q i y t : In w (pj_nodes p) -> done_before (stages w) i (1 - q) -> In (code i, y) sd -> t <= sw_start y -> left_at all sd w t q.
    Proof.
      intros Hw (l1 & s & l2 & E & <- & Q) Hy Ht. exists (s :: l2).
      assert (NW : NoDup (map st_id (stages w))). { clear - Nd Hw. unfold all in Nd. apply in_split in Hw as (a & b & E). rewrite E, map_app, concat_app, map_app in Nd. cbn [map concat] in Nd. rewrite map_app in Nd.
        apply nodup_app_r, nodup_app_l in Nd. exact Nd. }
      split; [|split].
      - rewrite E, map_app in NW. apply nodup_app_r in NW. exact NW.
      - destruct (Tot w) as [T _]. rewrite E in T.
        assert (A : forall l m, (total_share (l ++ m) == total_share l + total_share m)%Q).
        { clear. intros l m. induction l as [|x l IH]; cbn [app]; [unfold total_share; cbn; lra|]. unfold total_share in *. cbn [fold_right]. lra. }
        rewrite A in T. lra.
      - intros z Hz. assert (Hzw : In z (stages w)) by (rewrite E; apply in_or_app; right; exact Hz).
        assert (Hza : In z all) by (apply in_all; rewrite (stage_work w z Hzw); auto). split; [exact Hza|]. split; [apply stage_work, Hzw|].
        destruct (entry z Hza) as (x & Hx). exists x. split; [exact Hx|]. destruct Hz as [<-|Hz].
        + rewrite (unique_entry _ _ _ Hx Hy). exact Ht.
        + assert (A := stage_order w Hw l2 l1 s E y Hy z x Hz Hx). assert (B := fs_times _ _ _ _ _ F _ _ Hy). lia.
    Qed.
    Lemma stage_in w s : In w (pj_nodes p) -> In s (stages w) -> In s all.
    Proof. intros Hw Hs. apply in_all. rewrite (stage_work w s Hs). auto. Qed.
    Lemma edges_honoured e su fu sv fv : In e (pj_edges p) -> work_span sd (re_from e) su fu -> work_span sd (re_to e) sv fv -> honoured p all use_lag sd e su fu sv fv.
    Proof.
      intros He Su Sv. destruct (comes_before_in _ _ _ (pk_order _ _ _ _ _ Hp e He)) as [Hu Hv].
      destruct (stage_span _ Hu) as (ua & ub & xua & xub & U1 & U2 & U3 & U4 & U5). destruct (stage_span _ Hv) as (va & vb & xva & xvb & V1 & V2 & V3 & V4 & V5).
      destruct (span_unique _ _ _ _ _ _ Su U5) as [-> ->], (span_unique _ _ _ _ _ _ Sv V5) as [-> ->]. clear Su Sv.
      assert (Ends : forall w i j, ends_with (stages w) i -> ends_with (stages w) j -> i = j) by (intros w i j A B; apply ends_id in A, B; congruence).
      assert (Starts : forall w i j, starts_with (stages w) i -> starts_with (stages w) j -> i = j) by (intros w i j (a & l & A & <-) (b & m & B & <-); rewrite A in B; injection B as <- _; reflexivity).
      assert (Tua := fs_times _ _ _ _ _ F _ _ U3). assert (Tub := fs_times _ _ _ _ _ F _ _ U4). assert (Tva := fs_times _ _ _ _ _ F _ _ V3). assert (Tvb := fs_times _ _ _ _ _ F _ _ V4).
      (* the two parts of the edge *)
      assert (PS : re_type e <> FF ->
        match re_type e with FS => tadd (sw_finish xub) (Qceiling (re_lag e)) <= sw_start xva
        | IFS => sw_finish xub <= sw_start xva
        | _ => (use_lag = false -> match re_type e with FFS => sw_finish xub <= sw_start xva | _ => sw_start xua <= sw_start xva end) /\
           (use_lag = true -> sw_start xua <= sw_start xva /\ forall q, lag_part (re_lag e) (pj_volume p (re_from e)) q -> done_by all sd (re_from e) (sw_start xva) q) end).
      { intros NF. destruct (proj1 (Rep e He) NF) as (ne & Hne & Q).
        inversion Q as [a f T X1 X2 EE|a f T X1 X2 EE|a f U T X1 X2 EE|a f U T X1 X2 EE|a f q U T LP X1 X2 EE]; subst ne.
        - rewrite T. rewrite (Ends _ _ _ X1 U2), (Starts _ _ _ X2 V1) in Hne.
          assert (A := HE _ xub xva (proj2 (in_edges _) (ex_intro _ _ (conj Hne eq_refl))) U4 V3). cbn [e_lag ne_lag] in A. rewrite qint_Z in A. exact A.
        - rewrite T. rewrite (Ends _ _ _ X1 U2), (Starts _ _ _ X2 V1) in Hne. exact (edge_times _ xub xva Hne ltac:(cbn; lia) U4 V3).
        - rewrite T. rewrite (Ends _ _ _ X1 U2), (Starts _ _ _ X2 V1) in Hne. split; [|congruence]. intros _. exact (edge_times _ xub xva Hne ltac:(cbn; lia) U4 V3).
        - rewrite T. rewrite (Starts _ _ _ X1 U1), (Starts _ _ _ X2 V1) in Hne. split; [|congruence]. intros _. assert (A := edge_times _ xua xva Hne ltac:(cbn; lia) U3 V3). lia.
        - rewrite (Starts _ _ _ X2 V1) in Hne.
          assert (Y : exists s, In s (stages (re_from e)) /\ st_id s = a) by (destruct X1 as (l1 & s & l2 & E & Ei & _); exists s; split; [rewrite E; apply in_or_app; right; left; reflexivity|exact Ei]).
          destruct Y as (s & Hs & Es). destruct (entry s (stage_in _ s Hu Hs)) as (y & Hy). rewrite Es in Hy.
          assert (A := edge_times _ y xva Hne ltac:(cbn; lia) Hy V3). rewrite <- Es in Hy. assert (B := work_bounds _ Hu _ _ _ _ U1 U2 U3 U4 s y Hs Hy). rewrite Es in Hy.
          assert (G : sw_start xua <= sw_start xva /\ forall q, lag_part (re_lag e) (pj_volume p (re_from e)) q -> done_by all sd (re_from e) (sw_start xva) q).
          { split; [lia|]. intros q' LP'. destruct (part_done _ q a y (sw_start xva) Hu X1 Hy A) as (l & L1 & L2 & L3). exists l. split; [exact L1|]. split; [|exact L3].
            rewrite L2. exact (lag_part_unique _ _ _ _ LP LP'). }
          destruct T as [T|T]; rewrite T; (split; [congruence|intros _; exact G]). }
      assert (PF : re_type e = FF \/ use_lag = true /\ re_type e = FFS -> sw_finish xub <= sw_finish xvb /\
         (use_lag = true -> forall q, lag_part (re_lag e) (pj_volume p (re_from e)) q -> left_at all sd (re_to e) (sw_finish xub) q)).
      { intros NF. destruct (proj2 (Rep e He) NF) as (ne & Hne & Q).
        inversion Q as [a z U T X1 X2 EE|a z q U T LP X1 X2 EE]; subst ne.
        - rewrite (Ends _ _ _ X1 U2), (Ends _ _ _ X2 V2) in Hne. assert (A := edge_times _ xub xvb Hne ltac:(cbn; lia) U4 V4). split; [lia|congruence].
        - rewrite (Ends _ _ _ X1 U2) in Hne.
          assert (Y : exists s, In s (stages (re_to e)) /\ st_id s = z) by (destruct X2 as (l1 & s & l2 & E & Ei & _); exists s; split; [rewrite E; apply in_or_app; right; left; reflexivity|exact Ei]).
          destruct Y as (s & Hs & Es). destruct (entry s (stage_in _ s Hv Hs)) as (y & Hy). rewrite Es in Hy.
          assert (A := edge_times _ xub y Hne ltac:(cbn; lia) U4 Hy). rewrite <- Es in Hy. assert (B := work_bounds _ Hv _ _ _ _ V1 V2 V3 V4 s y Hs Hy). rewrite Es in Hy.
          split; [lia|]. intros _ q' LP'. destruct (part_left _ q z y (sw_finish xub) Hv X2 Hy A) as (l & L1 & L2 & L3). exists l. split; [exact L1|]. split; [|exact L3].
          rewrite L2. exact (lag_part_unique _ _ _ _ LP LP'). }
      unfold honoured. assert (UL : use_lag = true \/ use_lag = false) by (clear; destruct use_lag; auto).
      destruct (re_type e) eqn:T.
      - apply PS. discriminate.
      - destruct PS as [P1 P2]; [discriminate|]. destruct UL as [U|U].
        + destruct (P2 U) as [Q1 Q2]. destruct PF as [R1 R2]; [auto|]. rewrite U. auto.
        + rewrite U. apply P1, U.
      - destruct PS as [P1 P2]; [discriminate|]. destruct UL as [U|U]; [destruct (P2 U); auto|]. split; [apply P1, U|congruence].
      - apply PF. auto.
      - apply PS. discriminate.
    Qed.
  End Times.
  Section Run.
    Context {T : Type} (run : graph -> list nat -> (nat -> Z) -> list contractor -> (nat -> work_spec) -> scheduled T).
    Variables (cs : list contractor) (spec : nat -> work_spec) (listing : list nat -> list nat) (depth : nat) (prio : nat -> Z).
    Hypothesis Hrun : scheduler_correct run table apt.
    Hypothesis Hcs : contractors_ok cs.
    Hypothesis Hspec : specified_ok p cs spec.
    Hypothesis Hlist : forall l, Permutation (listing l) l.
    Hypothesis Hdepth : (length (pj_nodes p) + 2 * length (pj_edges p) <= depth)%nat.
    Hypothesis Hprio : forall w, prio w = pj_prio p w.
    Lemma narrows_kinds a b : Forall2 narrows a b -> map r_kind b = map r_kind a /\ length b = length a.
    Proof. induction 1 as [|x y a b (H & _) _ [IH1 IH2]]; cbn [map length]; [auto|]. split; congruence. Qed.
    Lemma narrows_in a b r' : Forall2 narrows a b -> In r' b -> exists r, In r a /\ narrows r r'.
    Proof. induction 1 as [|x y a b H _ IH]; intros Hin; [destruct Hin|]. destruct Hin as [<-|Hin]; [exists x; split; [left; reflexivity|exact H]|]. destruct (IH Hin) as (r & A & B). exists r. split; [right; exact A|exact B]. Qed.
    Lemma narrows_in' a b r : Forall2 narrows a b -> In r a -> exists r', In r' b /\ narrows r r'.
    Proof. induction 1 as [|x y a b H _ IH]; intros Hin; [destruct Hin|]. destruct Hin as [<-|Hin]; [exists y; split; [left; reflexivity|exact H]|]. destruct (IH Hin) as (r' & A & B). exists r'. split; [right; exact A|exact B]. Qed.
    Lemma able_narrows ct a b : Forall2 narrows a b -> able ct a -> able ct b.
    Proof. intros H Ha r' Hr'. destruct (narrows_in _ _ _ H Hr') as (r & Hr & N1 & N2 & _). destruct (Ha r Hr) as (n & H1 & H2). exists n. rewrite N1, N2. auto. Qed.
    Lemma unit_out n : ~ In n codes -> u_reqs (g_unit g n) = [].
    Proof. intros H. destruct (unit_cases n) as [(s & Hs & ->)|[_ ->]]; [exfalso; apply H, in_codes; exists s; rewrite decode_code; auto|reflexivity]. Qed.
    Lemma stage_specified : (forall n, spec_ok (stage_spec spec n) /\ sp_time (stage_spec spec n) = None /\ spec_fits cs (u_reqs (g_unit g n)) (stage_spec spec n)) /\
      spec_complete g (stage_spec spec) /\ counts_within g (stage_spec spec).
    Proof.
      assert (Empty : forall reqs, spec_fits cs reqs (WSpec [] [] None false)).
      { intros reqs. split; [intros ct k m n _ _ []|]. cbn [sp_workers length]. intros E r Hr. destruct reqs; [destruct Hr|discriminate]. }
      split; [|split].
      - intros n. unfold stage_spec. destruct (snd (decode n)); [split; [split; [intros k m []|exact I]|]; split; [reflexivity|apply Empty]|].
        destruct (sk_spec _ _ _ Hspec (fst (decode n))) as (A & B & C1 & C2). split; [exact A|]. split; [exact B|]. split; [exact C1|].
        destruct (in_dec Nat.eq_dec n codes) as [Hn|Hn].
        + destruct (stage_reqs n Hn) as (N & _). destruct (narrows_kinds _ _ N) as [K1 K2]. rewrite K2. intros E r' Hr'. destruct (narrows_in _ _ _ N Hr') as (r & Hr & -> & _). exact (C2 E r Hr).
        + rewrite (unit_out n Hn). intros _ r [].
      - intros n. unfold stage_spec. destruct (snd (decode n)) eqn:E0; [left; reflexivity|]. destruct (in_dec Nat.eq_dec n codes) as [Hn|Hn].
        + destruct (stage_reqs n Hn) as (N & _). destruct (narrows_kinds _ _ N) as [_ ->]. exact (sk_complete _ _ _ Hspec (fst (decode n))).
        + left. apply (sk_only _ _ _ Hspec). intros Hw. apply Hn. assert (X := last_in _ Hw). rewrite <- (code_decode n). destruct (decode n) as [w k]. cbn [fst snd] in *. subst k. exact X.
      - intros n r' x Hr' Hx. unfold stage_spec in Hx. destruct (snd (decode n)); [destruct Hx|]. destruct (in_dec Nat.eq_dec n codes) as [Hn|Hn]; [|rewrite (unit_out n Hn) in Hr'; destruct Hr'].
        destruct (stage_reqs n Hn) as (N & _). destruct (narrows_in _ _ _ N Hr') as (r & Hr & N1 & N2 & N3 & _). rewrite N1 in Hx. rewrite N2, N3. exact (sk_counts _ _ _ Hspec (fst (decode n)) r x Hr Hx).
    Qed.
    Lemma run_correct :
      let r := restructured_run run spec listing depth p prio cs use_lag in
      (exists sd w s t, r = Scheduled sd (w, s, t) /\ carries_out p use_lag cs spec w sd t /\ answered run p cs spec w sd s) \/
      (r = CircularGraph /\ groups_cyclic p) \/
      (r = NotEnoughWorkers /\ exists w, In w (pj_nodes p) /\ nobody_able (plain_graph p) cs spec w).
    Proof.
      destruct restructured_graph as (w & Ew & Eg & Pn & Tn).
      assert (Ends : wg_start w = code (pj_start p, None) /\ wg_finish w = code (pj_finish p, None)).
      { unfold make_work_graph in Ew. destruct (traverse_children true _ _); [injection Ew as <-; auto|discriminate]. }
      assert (OK := stage_pipeline_ok (wg_nodes w) prio (stage_spec spec) Pn Hprio).
      assert (Hlen : (length (wg_nodes w) <= depth)%nat) by (rewrite (Permutation_length Pn); assert (L := codes_length); lia).
      destruct (correct_consistent depth g (wg_nodes w) _ (po_graph _ _ _ _ _ _ _ _ OK) (po_prio _ _ _ _ _ _ _ _ OK) Hlen) as (prio' & Ep & Cp).
      destruct (corrected_unchanged depth g (wg_nodes w) (fun n => prio (fst (decode n))) depends_acyclic) as (prio2 & Ep2 & Up).
      { intros x y H. apply linked_depends, linked_in in H as [A B]. split; eapply Permutation_in; try (apply Permutation_sym, Pn); assumption. }
      { exact Hlen. }
      { intros x y H. apply (prio_path prio Hprio), rt_step, H. }
      rewrite Ep2 in Ep. injection Ep as ->. rename Ep2 into Ep.
      destruct stage_specified as (S1 & S2 & S3).
      assert (DR : default_run g (wg_nodes w) table prio' cs (stage_spec spec) apt) by (eapply pipeline_run; eassumption).
      cbv zeta. unfold restructured_run, graph_restructuring. fold all in R. rewrite R. fold g. rewrite Ew, Eg, Ep, Eg.
      destruct (Hrun g (wg_nodes w) prio' cs (stage_spec spec) DR) as [(sd & s & E & F & HE)|[(E & C)|(E & n & Hn & No)]]; rewrite E.
      - left.
        assert (Perm : Permutation (map fst (rev sd)) codes). { rewrite map_rev. eapply Permutation_trans; [apply Permutation_sym, Permutation_rev|]. eapply Permutation_trans; [apply (fs_works _ _ _ _ _ F)|exact Pn]. }
        assert (Lin : forall n m, depends_on g n m -> In n (map fst (rev sd)) /\ In m (map fst (rev sd))).
        { intros n m H. apply linked_depends, linked_in in H as [A B]. split; eapply Permutation_in; try (apply Permutation_sym, Perm); assumption. }
        destruct (execution_time_is_latest_finish listing g (rev sd) (code (pj_finish p, None)) Hlist depends_acyclic) as (rows & t & R1 & R2 & R3 & R4).
        { eapply Permutation_NoDup; [apply Permutation_sym, Perm|apply codes_nodup]. }
        { intros n x Hn. apply in_rev in Hn. apply (fs_times _ _ _ _ _ F n x Hn). }
        { intros n m v x H Hv Hx. apply in_rev in Hv, Hx. apply linked_depends, linked_inv in H as (ne & Hne & -> & -> & _).
          assert (L : 0 <= qint (ne_lag ne)) by exact (edge_lag_nonneg ne Hne).
          exact (edge_times cs (stage_spec spec) (wg_nodes w) sd F HE ne v x Hne L Hv Hx). }
        { eapply Permutation_in; [apply Permutation_sym, Perm|]. apply last_in, (pk_finish _ _ _ _ _ Hp). }
        { exact Lin. }
        { intros n Hn. apply reaches_finish. eapply Permutation_in; [exact Perm|exact Hn]. }
        unfold time_of. rewrite R1, R2. exists sd, w, s, t. split; [reflexivity|].
        split; [|exists prio'; split; [intros n; rewrite Up; apply Hprio|rewrite Eg; exact E]]. exists all.
        split; [exists edges; split; [exact R|]; split; [exact Eg|]; split; [apply Ends|]; split; [apply Ends|]; split; [exact Pn|rewrite Eg; exact Tn]|].
        split; [rewrite Eg; exact F|]. split; [|split; [|split]].
        + intros v Hv. destruct (stage_span cs (stage_spec spec) (wg_nodes w) sd Pn F HE v Hv) as (a & b & xa & xb & _ & _ & _ & _ & X). eauto.
        + intros e su fu sv fv He Su Sv. exact (edges_honoured cs (stage_spec spec) (wg_nodes w) sd Pn F HE e su fu sv fv He Su Sv).
        + intros n x Hn. apply (R3 n x). apply in_rev. rewrite rev_involutive. exact Hn.
        + destruct R4 as (n & x & Hx & Ex). exists n, x. split; [apply in_rev; exact Hx|exact Ex].
      - right. left. split; [reflexivity|]. destruct C as (h & C). exists (fst (decode h)).
        assert (Step : forall x y, is_head g (wg_nodes w) x /\ is_head g (wg_nodes w) y /\ prerequisite g x y -> group_before p (fst (decode x)) (fst (decode y))).
        { intros x y (Hx & Hy & Pxy). destruct (head_stage _ x Pn Hx) as (_ & _ & _ & _ & W1 & G1), (head_stage _ y Pn Hy) as (_ & _ & _ & _ & W2 & G2).
          destruct (prerequisite_works _ x y Pn Hx Hy Pxy) as (N & e & E1 & E2 & E3). split; [split; assumption|]. split; [split; assumption|]. split; [exact N|]. exists e. auto. }
        revert C. generalize h at 1 3. intros h0 C. induction C as [x y H|x y z _ IH1 _ IH2]; [apply t_step, Step, H|eapply t_trans; eassumption].
      - right. right. split; [reflexivity|]. destruct (head_stage _ n Pn Hn) as (s & l & E1 & E2 & W & _). exists (fst (decode n)). split; [exact W|].
        assert (Hc : In n codes) by (eapply Permutation_in; [exact Pn|apply Hn]). destruct (stage_reqs n Hc) as (N & _).
        intros ct Hct Al Ab. apply (No ct Hct); [|eapply able_narrows; [exact N|exact Ab]].
        unfold stage_spec. destruct (snd (decode n)); [left; reflexivity|exact Al].
    Qed.
  End Run.
End Restructured.
