(** C103: a project of blocks that is divided among agents is scheduled feasibly as a whole. *)
From Coq Require Import ZArith List Bool Lia Arith Relations Permutation ZifyBool ZifyNat.
From Verif Require Import TimeModel ScheduleProofs MomentumModel JITModel MomentumSpec MomentumHistory MomentumTeamProofs JITHistory JITProofs GraphModel
  ScheduleModel ScheduleSpec ContractorProofs TeamProofs SchedulePoolProofs ScheduleInv JitScheduleInv ContractorTheorems ScheduleTheorems Digraph TopoModel TopoProofs TopoTheorems HeadModel HeadProofs
  HeadTheorems PriorityModel PriorityTheorems TraverseModel ValidationModel ValidationProofs OrderModel PipelineModel PipelineTheorems
  MultiAgentModel MultiAgentTheorems BlockSchedModel BlockSchedProofs.
Import ListNotations.
Local Open Scope Z_scope.

(** A block: a work graph whose works all lie between its start and its finish; the start
    needs no workers. *)
Record block_ok (B : block) : Prop := {
  bo_graph : graph_ok (bl_graph B) (bl_nodes B);
  bo_lags : forall e, In e (g_edges (bl_graph B)) -> 0 <= e_lag e;
  bo_start : In (bl_start B) (bl_nodes B) /\
             forall n, In n (bl_nodes B) -> n = bl_start B \/ path (depends_on (bl_graph B)) (bl_start B) n;
  bo_finish : In (bl_finish B) (bl_nodes B) /\
             forall n, In n (bl_nodes B) -> n = bl_finish B \/ path (depends_on (bl_graph B)) n (bl_finish B);
  bo_service : reqs_of (bl_graph B) (bl_start B) = [];
  bo_reqs : forall n, reqs_ok (reqs_of (bl_graph B) n);
  bo_volumes : forall n, 0 <= volume_of (bl_graph B) n;
  bo_priorities : priorities_ok (bl_graph B) (bl_nodes B) (bl_priority B) }.
Record setup_ok (a : agent_setup) : Prop := {
  so_contractors : contractors_ok (as_contractors a);
  so_estimate : forall again b, estimator_ok (as_estimate a again b);
  so_optimize : forall again b n c sd t, optimizer_ok (as_optimize a again b n c sd t) }.

(** The works [ws] of a block done by the contractors [cs] from [start] to [finish]: a
    feasible schedule of the block, all links kept, nothing earlier than [start], the last
    work ends at [finish]. *)
Record block_done (B : block) (cs : list contractor) (start finish : Z) (ws : works) : Prop := {
  bd_feasible : feasible (bl_graph B) cs no_spec (bl_nodes B) ws;
  bd_links : forall e wu wv, In e (g_edges (bl_graph B)) -> In (e_from e, wu) ws -> In (e_to e, wv) ws ->
    sw_finish wu <= sw_start wv /\
    ((forall h, is_head (bl_graph B) (bl_nodes B) h -> in_chain (bl_graph B) h (e_from e) -> ~ in_chain (bl_graph B) h (e_to e)) ->
     tadd (sw_finish wu) (e_lag e) <= sw_start wv);
  bd_start : forall n w, In (n, w) ws -> start <= sw_start w;
  bd_finish : (forall n w, In (n, w) ws -> sw_finish w <= finish) /\ exists n w, In (n, w) ws /\ sw_finish w = finish }.
(** All works of the blocks given to the agent at position [i]. *)
Definition works_of_agent (done : list (sblock works)) (i : nat) : works :=
  concat (map sb_schedule (filter (fun s => Nat.eqb (sb_agent s) i) done)).
(** All works of all blocks. *)
Definition all_works (done : list (sblock works)) : works := concat (map sb_schedule done).

(** ** One offer *)
(** The timeline of an agent that accounts for the bookings [h], at most [k] of them. *)
Inductive accounts (sc : scheduler) (p : pool) (h : MomentumSpec.history) (k : Z) : tline -> Prop :=
| ac_none : h = [] -> accounts sc p h k NoTimeline
| ac_rel s : sc = HEFT -> jinv p s -> jcovers p h s -> times_le TIME_INF s -> accounts sc p h k (ReleaseTimes s)
| ac_int s : sc <> HEFT -> minv p h s -> m_index s <= k -> accounts sc p h k (Intervals s).
Lemma accounts_mono sc p h k k' t : k <= k' -> accounts sc p h k t -> accounts sc p h k' t.
Proof. intros Hk H. destruct H; constructor; auto; lia. Qed.

Section Blocks.
  Variables (setup : nat -> agent_setup) (blocks : nat -> block) (listing shuffle : list nat -> list nat).
  Hypothesis Hlist : forall l, Permutation (listing l) l.
  Hypothesis Hshuffle : forall l, Permutation (shuffle l) l.
  Hypothesis Hsetup : forall i, setup_ok (setup i).

  Lemma answered (i : nat) (B : block) (apt : Z) (sd : works) (t : tline) (o : offer_t tline works) (wrapT : Type) (wrap : wrapT -> tline) s :
    block_ok B -> feasible (bl_graph B) (as_contractors (setup i)) no_spec (bl_nodes B) sd ->
    edges_respected (bl_graph B) (bl_nodes B) sd -> (forall n w, In (n, w) sd -> apt <= sw_start w) ->
    answer listing wrap (bl_graph B) apt (Scheduled sd s) = Some o ->
    of_start o = apt /\ of_timeline o = wrap s /\ Permutation (of_schedule o) sd /\
    block_done B (as_contractors (setup i)) apt (of_end o) (of_schedule o).
  Proof.
    intros HB F HE Hge H.
    destruct (rows_of_block (bl_graph B) (bl_nodes B) (bl_finish B) (bo_graph _ HB) (bo_finish _ HB) listing sd Hlist
               (fs_works _ _ _ _ _ F) (fs_times _ _ _ _ _ F) HE) as (rows & tm & E & P & Et & T1 & T2).
    unfold answer in H. rewrite E, Et in H. injection H as <-. cbn [of_start of_timeline of_schedule of_end].
    split; [reflexivity|]. split; [reflexivity|]. split; [exact P|].
    assert (Hin : forall x, In x rows <-> In x sd) by (intros x; split; apply Permutation_in; [exact P|apply Permutation_sym; exact P]).
    constructor.
    - eapply feasible_perm; eauto.
    - intros e wu wv He Hu Hv. apply HE; [exact He|apply Hin, Hu|apply Hin, Hv].
    - intros n w H. apply (Hge n w), Hin, H.
    - split; [intros n w H; apply (T1 n w), Hin, H|]. destruct T2 as (n & w & H & Ew). exists n, w. split; [apply Hin, H|exact Ew].
  Qed.

  Lemma offer_spec i again t b apt o h k :
    block_ok (blocks b) -> 0 <= apt <= TIME_INF ->
    accounts (as_scheduler (setup i)) (pool_of (as_contractors (setup i))) h k t -> (forall a m, 0 <= busy h a m) -> 0 <= k ->
    k + Z.of_nat (length (bl_nodes (blocks b))) < TIME_INF ->
    agent_offer setup blocks listing shuffle i again t b apt = Some o ->
    of_start o = apt /\ block_done (blocks b) (as_contractors (setup i)) apt (of_end o) (of_schedule o) /\
    exists h', accounts (as_scheduler (setup i)) (pool_of (as_contractors (setup i))) h' (k + Z.of_nat (length (bl_nodes (blocks b)))) (of_timeline o) /\
      (forall a m, busy (schedule_bookings (of_schedule o)) a m + busy h a m <= busy h' a m).
  Proof.
    intros HB Hapt Hac Hb Hk Hlen H. set (B := blocks b) in *. destruct (Hsetup i) as [S1 S2 S3].
    set (cs := as_contractors (setup i)) in *. set (est := as_estimate (setup i) again b).
    assert (Hin : inputs_ok (bl_graph B) est cs no_spec apt).
    { split; [exact S1|]. split; [apply S2|]. split; [apply (bo_reqs _ HB)|]. split; [apply (bo_volumes _ HB)|]. split; [|exact Hapt].
      intros n. split; [intros k0 n0 []|exact I]. }
    assert (Hheft := heft_prioritizes (bl_graph B) (bl_nodes B) est (bl_priority B) (bo_graph _ HB) (S2 again b) (bo_priorities _ HB)).
    assert (Htopo := topological_prioritizes (bl_graph B) (bl_nodes B) (bl_priority B) shuffle (bo_graph _ HB) Hshuffle (bo_priorities _ HB)).
    assert (Hint : forall prioritize, prioritizes (bl_graph B) (bl_nodes B) prioritize -> as_scheduler (setup i) <> HEFT ->
      answer listing Intervals (bl_graph B) apt (schedule_with_cache (bl_graph B) (bl_nodes B) prioritize
        (momentum_build_from (bl_graph B) est (fun n c sd s => as_optimize (setup i) again b n c sd (Intervals s)) cs no_spec apt t)) = Some o ->
      of_start o = apt /\ block_done B cs apt (of_end o) (of_schedule o) /\
      exists h', accounts (as_scheduler (setup i)) (pool_of cs) h' (k + Z.of_nat (length (bl_nodes B))) (of_timeline o) /\
        (forall a m, busy (schedule_bookings (of_schedule o)) a m + busy h a m <= busy h' a m)).
    { intros prioritize Hp Hsc Ha. destruct (schedule_with_cache _ _ _ _) as [sd s| | |] eqn:Es; try discriminate Ha.
      assert (Hst : minv (pool_of cs) h (match t with Intervals s => s | _ => momentum_init (pool_of cs) end) /\
                    m_index (match t with Intervals s => s | _ => momentum_init (pool_of cs) end) <= k).
      { destruct Hac as [->|s0 E|s0 _ M X]; [|congruence|auto]. split; [apply momentum_init_inv, pool_of_ok, S1|exact Hk]. }
      destruct Hst as [HM HX].
      destruct (momentum_block (bl_graph B) (bl_nodes B) 0%nat (bo_graph _ HB) (bo_lags _ HB) est cs apt Hin prioritize _ t h k _ sd s
                  Hp (fun n c sd s => S3 again b n c sd (Intervals s)) eq_refl HM HX Hb Hlen Es) as (h' & M' & X' & L' & F & HE & Hge).
      destruct (answered i B apt sd t o mstate Intervals s HB F HE Hge Ha) as (A1 & A2 & A3 & A4).
      split; [exact A1|]. split; [exact A4|]. exists h'. split; [rewrite A2; apply ac_int; assumption|].
      intros a m. rewrite (sb_perm _ _ _ _ A3). apply L'. }
    unfold agent_offer in H. fold B cs est in H. destruct (as_scheduler (setup i)) eqn:Esc.
    - destruct (schedule_with_cache _ _ _ _) as [sd s| | |] eqn:Es; try discriminate H.
      set (s0 := match t with ReleaseTimes s => s | _ => jit_init (pool_of cs) end) in *.
      assert (Hst : jinv (pool_of cs) s0 /\ jcovers (pool_of cs) h s0 /\ times_le TIME_INF s0).
      { unfold s0. destruct Hac as [->|s1 _ J1 J2 J3|s1 E]; [|auto|congruence].
        destruct (jit_init_inv _ (pool_of_ok cs S1)) as [I1 I2]. split; [exact I1|]. split; [exact I2|]. apply jit_init_times. inf; lia. }
      destruct Hst as (J1 & J2 & J3).
      destruct (jit_block (bl_graph B) (bl_nodes B) (bl_start B) 0%nat (bo_graph _ HB) (bo_lags _ HB) (bo_start _ HB) est cs apt Hin (bo_service _ HB) _ _ t h s0 sd s
                  Hheft (fun n c sd s => S3 again b n c sd (ReleaseTimes s)) eq_refl J1 J2 J3 Hb Es) as (h' & K1 & K2 & K3 & L' & F & HE & Hge).
      destruct (answered i B apt sd t o jtimeline ReleaseTimes s HB F HE Hge H) as (A1 & A2 & A3 & A4).
      split; [exact A1|]. split; [exact A4|]. exists h'. split; [rewrite A2; apply ac_rel; auto|].
      intros a m. rewrite (sb_perm _ _ _ _ A3). apply L'.
    - apply (Hint _ Hheft); [discriminate|exact H].
    - apply (Hint _ Htopo); [discriminate|exact H].
  Qed.

  (** ** All blocks *)
  Variables (count : nat) (nodes : list nat) (edges : list (nat * nat)).
  Hypothesis Hblocks : forall b, In b nodes -> block_ok (blocks b).
  Definition work_count (l : list nat) : Z := Z.of_nat (length (concat (map (fun b => bl_nodes (blocks b)) l))).
  Lemma work_count_app l b : work_count (l ++ [b]) = work_count l + Z.of_nat (length (bl_nodes (blocks b))).
  Proof. unfold work_count. rewrite map_app, concat_app, app_length. cbn. rewrite app_nil_r. lia. Qed.
  Lemma work_count_perm l l' : Permutation l l' -> work_count l = work_count l'.
  Proof. unfold work_count. induction 1; cbn [map concat] in *; rewrite ?app_length in *; lia. Qed.
  Lemma works_of_agent_app done s i : works_of_agent (done ++ [s]) i =
    works_of_agent done i ++ (if Nat.eqb (sb_agent s) i then sb_schedule s else []).
  Proof.
    unfold works_of_agent. rewrite filter_app. cbn [filter]. destruct (Nat.eqb (sb_agent s) i); rewrite map_app, concat_app; cbn; rewrite ?app_nil_r; reflexivity.
  Qed.
  Lemma block_done_busy B cs st fi ws a m : block_ok B -> block_done B cs st fi ws -> 0 <= busy (schedule_bookings ws) a m.
  Proof.
    intros HB [F _ _ _]. apply busy_nonneg. intros x w Hx Hw. apply (feasible_counts _ _ _ _ _ (bo_graph _ HB) F x w Hx Hw).
  Qed.

  Lemma history_done agents' done :
    MultiAgentTheorems.history tline works (agent_offer setup blocks listing shuffle) edges (new_agents count) done agents' ->
    incl (map sb_block done) nodes -> work_count (map sb_block done) < TIME_INF ->
    length agents' = count /\
    (forall i a, nth_error agents' i = Some a -> exists h,
        accounts (as_scheduler (setup i)) (pool_of (as_contractors (setup i))) h (work_count (map sb_block done)) (ag_timeline a) /\
        (forall x m, 0 <= busy (schedule_bookings (works_of_agent done i)) x m <= busy h x m)) /\
    (forall s, In s done -> (sb_agent s < count)%nat /\ 0 <= sb_start s /\ sb_end s <= TIME_INF /\
        block_done (blocks (sb_block s)) (as_contractors (setup (sb_agent s))) (sb_start s) (sb_end s) (sb_schedule s)).
  Proof.
    intros Hh Hincl Hlen. induction Hh as [|done agents1 b m o i agents2 Hh IH Hp Hm1 Hm2 Hr Hs].
    - split; [unfold new_agents; rewrite map_length, seq_length; reflexivity|]. split; [|intros s []].
      intros i a Hn. exists []. split; [|intros x m; cbn; lia]. unfold new_agents in Hn. apply nth_error_In, in_map_iff in Hn as (j & <- & _).
      cbn. apply ac_none. reflexivity.
    - rewrite map_app in Hincl, Hlen. cbn [map sb_block] in Hincl, Hlen. rewrite work_count_app in Hlen.
      assert (Hb : In b nodes) by (apply Hincl, in_or_app; right; left; reflexivity).
      destruct IH as (I1 & I2 & I3); [intros x Hx; apply Hincl, in_or_app; left; exact Hx|lia|].
      destruct (auction_correct _ _ _ _ _ _ _ _ _ Hr) as (a & first & Ha & _ & _ & _ & Ho & Hl & Hags).
      destruct (I2 i a Ha) as (h & Hac & Hbusy).
      assert (Hm : 0 <= m <= TIME_INF).
      { destruct Hm2 as [[-> _]|(s & Hs' & _ & <-)]; [inf; lia|]. destruct (I3 s Hs') as (_ & S1 & S2 & S3).
        split; [|exact S2]. destruct (bd_finish _ _ _ _ _ S3) as [_ (n & w & Hw & <-)].
        assert (A := fs_times _ _ _ _ _ (bd_feasible _ _ _ _ _ S3) n w Hw). lia. }
      assert (Hapt : 0 <= tadd m 1 <= TIME_INF).
      { unfold tadd. destruct (set_time_cases (m + 1)) as [[E R]|[[R E]|[R E]]]; rewrite E; inf; lia. }
      assert (Hk : 0 <= work_count (map sb_block done)) by (unfold work_count; lia).
      destruct (offer_spec i true (ag_timeline a) b (tadd m 1) o h _ (Hblocks b Hb) Hapt Hac (fun x n => Z.le_trans _ _ _ (proj1 (Hbusy x n)) (proj2 (Hbusy x n))) Hk ltac:(lia) Ho)
        as (O1 & O2 & h' & O3 & O4).
      assert (Hi : (i < count)%nat) by (rewrite <- I1; apply nth_error_Some; congruence).
      assert (Hlt : forall j x, nth_error agents2 j = Some x -> exists y, nth_error agents1 j = Some y).
      { intros j x Hx. destruct (nth_error agents1 j) as [y|] eqn:Ey; [eauto|]. exfalso. apply nth_error_None in Ey.
        assert (nth_error agents2 j <> None) by congruence. apply nth_error_Some in H. lia. }
      split; [lia|]. split.
      + intros j x Hx. destruct (Hlt j x Hx) as (y & Hy). destruct (Hags j y Hy) as (x' & Hx' & _ & Ht & _).
        assert (x' = x) by congruence. subst x'. rewrite Ht. rewrite works_of_agent_app. cbn [sb_agent sb_schedule].
        rewrite map_app. cbn [map sb_block]. rewrite work_count_app.
        destruct (Nat.eqb_spec j i) as [->|Hne].
        * rewrite Nat.eqb_refl. exists h'. split; [exact O3|]. intros z n. rewrite sb_app, busy_app.
          specialize (O4 z n). specialize (Hbusy z n). assert (N := block_done_busy _ _ _ _ _ z n (Hblocks b Hb) O2). lia.
        * destruct (Nat.eqb_spec i j) as [->|_]; [congruence|]. rewrite app_nil_r. destruct (I2 j y Hy) as (hj & J1 & J2).
          exists hj. split; [eapply accounts_mono; [|exact J1]; lia|exact J2].
      + intros s Hin. apply in_app_or in Hin as [Hin|[<-|[]]]; [apply I3; exact Hin|]. cbn [sb_agent sb_start sb_end sb_block sb_schedule].
        split; [exact Hi|]. rewrite O1. split; [lia|]. split; [|exact O2].
        destruct (bd_finish _ _ _ _ _ O2) as [_ (n & w & Hw & <-)].
        assert (A := fs_times _ _ _ _ _ (bd_feasible _ _ _ _ _ O2) n w Hw). lia.
  Qed.

  Lemma accounts_capacity sc cs h k t ct kd n m : contractors_ok cs -> accounts sc (pool_of cs) h k t -> In ct cs -> In (kd, n) (ct_workers ct) ->
    0 <= m -> busy h (ct_id ct, kd) m <= n.
  Proof.
    intros Hcs Ha Hct Hin Hm. assert (Hcap := capacity_pool cs ct kd n Hcs Hct Hin). destruct Ha as [->|s _ J1 J2 _|s _ M _].
    - cbn. destruct Hcs as [_ Hok]. destruct (Hok ct Hct) as [_ Hn]. apply (Hn _ _ Hin).
    - eapply busy_ge_zero_time; eauto.
    - eapply minv_busy_le; eauto.
  Qed.

  Lemma tadd_one_lt a b : - TIME_INF < a -> a < TIME_INF -> tadd a 1 <= b -> a < b.
  Proof.
    intros Hlo Hhi. unfold tadd, set_time. destruct (Z.ltb_spec TIME_INF (a + 1)); [lia|]. destruct (Z.ltb_spec (a + 1) (- TIME_INF)); lia.
  Qed.

  (** C103. Agents with HEFT, HEFTBetween or topological schedulers divide a graph of blocks.
      When every block is assigned:
      every block is done exactly once, by one agent, feasibly with the contractors of that
      agent, inside the times noted for it;
      if a block depends on another, each of its works starts after every work of the other
      ends;
      at every moment, over all blocks given to an agent together, no more workers of a
      contractor are busy than it has. *)
  Theorem blocks_feasible agents' done :
    NoDup nodes -> (forall a b, edge_of edges a b -> In a nodes /\ In b nodes) -> work_count nodes < TIME_INF ->
    manage setup blocks listing shuffle count (block_graph_of nodes edges) = Some (done, agents') ->
    Permutation (map sb_block done) nodes /\
    (forall s, In s done -> (sb_agent s < count)%nat /\
       block_done (blocks (sb_block s)) (as_contractors (setup (sb_agent s))) (sb_start s) (sb_end s) (sb_schedule s)) /\
    (forall sa sb u v wu wv, In sa done -> In sb done -> edge_of edges (sb_block sa) (sb_block sb) ->
       In (u, wu) (sb_schedule sa) -> In (v, wv) (sb_schedule sb) ->
       tadd (sw_finish wu) 1 <= sw_start wv /\ (sw_finish wu < TIME_INF -> sw_finish wu < sw_start wv)) /\
    (forall i ct k n t, In ct (as_contractors (setup i)) -> In (k, n) (ct_workers ct) ->
       busy (schedule_bookings (works_of_agent done i)) (ct_id ct, k) t <= n).
  Proof.
    intros Hnd He Hlen H. unfold manage in H.
    destruct (manage_blocks_correct _ _ _ _ _ _ _ _ Hnd He H) as (HP & Hh & _ & Hedge).
    destruct (history_done agents' done Hh) as (I1 & I2 & I3).
    { intros x Hx. eapply Permutation_in; eauto. }
    { rewrite (work_count_perm _ _ HP). exact Hlen. }
    split; [exact HP|]. split; [intros s Hs; destruct (I3 s Hs) as (A & _ & _ & B); auto|]. split.
    - intros sa sb u v wu wv Ha Hb Hab Hu Hv. destruct (I3 sa Ha) as (_ & _ & _ & Da). destruct (I3 sb Hb) as (_ & _ & _ & Db).
      destruct (Hedge sa sb Ha Hb Hab) as [Hle _].
      assert (Hfin := proj1 (bd_finish _ _ _ _ _ Da) u wu Hu). assert (Hst := bd_start _ _ _ _ _ Db v wv Hv).
      assert (Htu := fs_times _ _ _ _ _ (bd_feasible _ _ _ _ _ Da) u wu Hu).
      assert (Hmono : tadd (sw_finish wu) 1 <= tadd (sb_end sa) 1).
      { unfold tadd. destruct (set_time_cases (sw_finish wu + 1)) as [[A1 A2]|[[A1 A2]|[A1 A2]]], (set_time_cases (sb_end sa + 1)) as [[B1 B2]|[[B1 B2]|[B1 B2]]]; inf; lia. }
      split; [lia|]. intros Hlt. apply tadd_one_lt; inf; lia.
    - intros i ct k n t Hct Hk.
      assert (Hn0 : 0 <= n) by (destruct (so_contractors _ (Hsetup i)) as [_ Hok]; destruct (Hok ct Hct) as [_ Hn]; apply (Hn _ _ Hk)).
      destruct (Z.ltb_spec t 0) as [Ht|Ht].
      + rewrite busy_before_zero; [exact Hn0| |exact Ht]. intros m w Hin. unfold works_of_agent in Hin. apply in_concat in Hin as (l & Hl & Hin).
        apply in_map_iff in Hl as (s & <- & Hs). apply filter_In in Hs as [Hs _]. destruct (I3 s Hs) as (_ & _ & _ & D).
        apply (fs_times _ _ _ _ _ (bd_feasible _ _ _ _ _ D) m w Hin).
      + destruct (lt_dec i count) as [Hi|Hi].
        * destruct (nth_error agents' i) as [a|] eqn:Ea; [|apply nth_error_None in Ea; lia].
          destruct (I2 i a Ea) as (h & Hac & Hb). eapply Z.le_trans; [apply Hb|]. eapply accounts_capacity; eauto. apply (so_contractors _ (Hsetup i)).
        * assert (E : works_of_agent done i = []); [|rewrite E; cbn; exact Hn0]. unfold works_of_agent.
          replace (filter (fun s => Nat.eqb (sb_agent s) i) done) with (@nil (sblock works)); [reflexivity|]. symmetry.
          assert (G : forall l, incl l done -> filter (fun s => Nat.eqb (sb_agent s) i) l = []).
          { induction l as [|s l IH]; intros Hl; [reflexivity|]. cbn [filter].
            destruct (I3 s (Hl s (or_introl eq_refl))) as (Hs & _). destruct (Nat.eqb_spec (sb_agent s) i); [lia|]. apply IH. intros x Hx. apply Hl. right. exact Hx. }
          apply G, incl_refl.
  Qed.

  (** If no two agents share a contractor, the whole project keeps to the workers there are. *)
  Theorem blocks_feasible_together agents' done :
    NoDup nodes -> (forall a b, edge_of edges a b -> In a nodes /\ In b nodes) -> work_count nodes < TIME_INF ->
    (forall i j ct ct', In ct (as_contractors (setup i)) -> In ct' (as_contractors (setup j)) -> ct_id ct = ct_id ct' -> i = j) ->
    manage setup blocks listing shuffle count (block_graph_of nodes edges) = Some (done, agents') ->
    forall i ct k n t, In ct (as_contractors (setup i)) -> In (k, n) (ct_workers ct) ->
      busy (schedule_bookings (all_works done)) (ct_id ct, k) t <= n.
  Proof.
    intros Hnd He Hlen Hdist H i ct k n t Hct Hk.
    destruct (blocks_feasible agents' done Hnd He Hlen H) as (HP & HD & _ & HC).
    eapply Z.le_trans; [|apply (HC i ct k n t Hct Hk)].
    assert (Hin : forall b, In b (map sb_block done) -> In b nodes) by (intros b; apply Permutation_in; exact HP).
    unfold all_works, works_of_agent. clear HC H. revert HD Hin. generalize done as l. clear HP.
    induction l as [|s l IH]; intros HD Hin; [cbn; lia|]. cbn [filter map concat].
    assert (IH' := IH (fun s' Hs' => HD s' (or_intror Hs')) (fun b Hb => Hin b (or_intror Hb))).
    rewrite sb_app, busy_app. destruct (Nat.eqb_spec (sb_agent s) i) as [E|Ne]; cbn [map concat].
    - rewrite sb_app, busy_app. lia.
    - assert (Z0 : busy (schedule_bookings (sb_schedule s)) (ct_id ct, k) t = 0); [|lia].
      destruct (HD s (or_introl eq_refl)) as (_ & D). assert (HB := Hblocks _ (Hin _ (or_introl eq_refl))).
      assert (Hc := feasible_counts _ _ _ _ _ (bo_graph _ HB) (bd_feasible _ _ _ _ _ D)).
      revert Hc. generalize (sb_schedule s) as ws. intros ws Hc. induction ws as [|[m w] ws IHw]; [reflexivity|].
      change ((m, w) :: ws) with ([(m, w)] ++ ws). rewrite sb_app, busy_app, IHw by (intros x y Hx; apply Hc; right; exact Hx).
      replace (schedule_bookings [(m, w)]) with (work_bookings (m, w)) by (unfold schedule_bookings; simpl; rewrite app_nil_r; reflexivity).
      rewrite busy_work. assert (Hz : tcount (sw_team w) (ct_id ct, k) = 0); [|rewrite Hz; destruct (_ && _); reflexivity].
      assert (Hteam : forall y, In y (sw_team w) -> w_contractor y <> ct_id ct).
      { intros y Hy E. destruct (Hc (m, w) y (or_introl eq_refl) Hy) as (_ & ct' & Hct' & Ec). apply Ne. apply (Hdist (sb_agent s) i ct' ct Hct' Hct). congruence. }
      clear - Hteam. induction (sw_team w) as [|y tm IHt]; [reflexivity|]. cbn.
      rewrite IHt by (intros z Hz; apply Hteam; right; exact Hz).
      destruct (Nat.eqb_spec (w_contractor y) (ct_id ct)) as [E|_]; [|reflexivity]. exfalso. apply (Hteam y (or_introl eq_refl) E).
  Qed.
End Blocks.
Print Assumptions blocks_feasible.
Print Assumptions blocks_feasible_together.

(** ** A case that meets the hypotheses *)
Definition bx_block : block := Bl sx_graph px_nodes 0 5 (fun _ => 1).
Definition bx_setup (i : nat) : agent_setup :=
  AS [Ct (2 * i) [(0%nat, 3); (1%nat, 2)]; Ct (2 * i + 1) [(0%nat, 2); (1%nat, 1)]]
     (match i with O => HEFT | 1%nat => HEFTBetween | _ => Topological end)
     (fun _ b n team => sx_est n team + Z.of_nat (match team with [] => 0 | _ => Nat.min b 3 end)%nat)
     (fun _ _ _ _ _ _ => min_optimizer).
Definition bx_manage := manage bx_setup (fun _ => bx_block) (fun l => l) (@rev nat) 2 (block_graph_of example_nodes example_edges).
Lemma bx_block_ok : block_ok bx_block.
Proof.
  destruct sx_hypotheses as (_ & _ & _ & _ & H3 & H4 & _). constructor; cbn [bx_block bl_graph bl_nodes bl_start bl_finish bl_priority].
  - exact px_graph_ok.
  - intros e He. cbn in He. repeat destruct He as [<-|He]; try destruct He; cbn; lia.
  - assert (E : forall a b, existsb (fun e => Nat.eqb (e_from e) a && Nat.eqb (e_to e) b) (g_edges sx_graph) = true -> path (depends_on sx_graph) a b).
    { intros a b H. apply existsb_exists in H as (e & He & H). apply andb_true_iff in H as [H1 H2]. apply Nat.eqb_eq in H1, H2. apply t_step. exists e.
      split; [exact He|]. split; [apply (gk_types _ _ px_graph_ok e He)|auto]. }
    assert (P1 := (E 0 1 eq_refl)%nat). assert (P2 := (t_trans _ _ _ _ _ P1 (E 1 2 eq_refl))%nat). assert (P3 := (E 0 3 eq_refl)%nat).
    assert (P4 := (t_trans _ _ _ _ _ P2 (E 2 4 eq_refl))%nat). assert (P5 := (t_trans _ _ _ _ _ P4 (E 4 5 eq_refl))%nat).
    split; [left; reflexivity|]. intros n Hn. cbn in Hn. repeat destruct Hn as [<-|Hn]; try destruct Hn; auto.
  - assert (E : forall a b, existsb (fun e => Nat.eqb (e_from e) a && Nat.eqb (e_to e) b) (g_edges sx_graph) = true -> path (depends_on sx_graph) a b).
    { intros a b H. apply existsb_exists in H as (e & He & H). apply andb_true_iff in H as [H1 H2]. apply Nat.eqb_eq in H1, H2. apply t_step. exists e.
      split; [exact He|]. split; [apply (gk_types _ _ px_graph_ok e He)|auto]. }
    assert (P4 := (E 4 5 eq_refl)%nat). assert (P3 := (t_trans _ _ _ _ _ (E 3 4 eq_refl) P4)%nat). assert (P2 := (t_trans _ _ _ _ _ (E 2 4 eq_refl) P4)%nat).
    assert (P1 := (t_trans _ _ _ _ _ (E 1 2 eq_refl) P2)%nat). assert (P0 := (t_trans _ _ _ _ _ (E 0 1 eq_refl) P1)%nat).
    split; [cbn; auto 10|]. intros n Hn. cbn in Hn. repeat destruct Hn as [<-|Hn]; try destruct Hn; auto.
  - reflexivity.
  - exact H3.
  - exact H4.
  - intros x y _ _ _. lia.
Qed.
Lemma bx_setup_ok i : setup_ok (bx_setup i).
Proof.
  constructor.
  - split.
    + cbn [bx_setup as_contractors map ct_id]. constructor; [|constructor; [intros []|constructor]]. intros [H|[]]. lia.
    + intros c Hc. destruct Hc as [<-|[<-|[]]]; cbn [ct_workers map fst].
      all: split; [constructor; [intros [H|[]]; discriminate H|constructor; [intros []|constructor]]|].
      all: intros k n [H|[H|[]]]; injection H as <- <-; lia.
  - intros again b n team. cbn. change TIME_INF with 2000000000. destruct team as [|w team]; cbn [sx_est]; [lia|]. destruct (_ <? _); lia.
  - intros. exact min_optimizer_ok.
Qed.
Example blocks_example :
  (forall b, In b example_nodes -> block_ok ((fun _ => bx_block) b)) /\ (forall i, setup_ok (bx_setup i)) /\
  work_count (fun _ => bx_block) example_nodes < TIME_INF /\
  (forall i j ct ct', In ct (as_contractors (bx_setup i)) -> In ct' (as_contractors (bx_setup j)) -> ct_id ct = ct_id ct' -> i = j) /\
  exists done agents', bx_manage = Some (done, agents') /\
    map (fun s => (sb_block s, sb_agent s, sb_start s, sb_end s)) done =
      [(0%nat, 0%nat, 1, 33); (2%nat, 0%nat, 34, 72); (1%nat, 1%nat, 34, 69); (3%nat, 0%nat, 73, 114)].
Proof.
  split; [intros b _; exact bx_block_ok|]. split; [exact bx_setup_ok|]. split; [vm_compute; reflexivity|]. split.
  - intros i j ct ct' H H' E. cbn [as_contractors bx_setup In] in H, H'.
    destruct H as [<-|[<-|[]]], H' as [<-|[<-|[]]]; cbn [ct_id] in E; lia.
  - eexists _, _. split; [vm_compute; reflexivity|reflexivity].
Qed.

(** ** Agents that share a contractor
    Each agent has its own timeline, so agents that share a contractor give its workers away
    twice. *)
Definition bx_shared (i : nat) : agent_setup :=
  AS (as_contractors (bx_setup 0)) (as_scheduler (bx_setup i)) (as_estimate (bx_setup i)) (as_optimize (bx_setup i)).
Lemma bx_shared_ok i : setup_ok (bx_shared i).
Proof. constructor; [apply (so_contractors _ (bx_setup_ok 0))|apply (so_estimate _ (bx_setup_ok i))|apply (so_optimize _ (bx_setup_ok i))]. Qed.
Theorem shared_contractor_overbooked :
  exists setup blocks count nodes edges done agents' ct k n t,
    (forall i, setup_ok (setup i)) /\ (forall b, In b nodes -> block_ok (blocks b)) /\
    manage setup blocks (fun l => l) (fun l => l) count (block_graph_of nodes edges) = Some (done, agents') /\
    (forall i, (i < count)%nat -> In ct (as_contractors (setup i))) /\ In (k, n) (ct_workers ct) /\
    n < busy (schedule_bookings (all_works done)) (ct_id ct, k) t.
Proof.
  exists bx_shared, (fun _ => bx_block), 2%nat, example_nodes, example_edges.
  eexists _, _, (Ct 1 [(0%nat, 2); (1%nat, 1)]), 0%nat, 2, 40.
  split; [exact bx_shared_ok|]. split; [intros; exact bx_block_ok|]. split; [vm_compute; reflexivity|].
  split; [intros i _; right; left; reflexivity|]. split; [left; reflexivity|]. vm_compute. reflexivity.
Qed.
Print Assumptions shared_contractor_overbooked.
