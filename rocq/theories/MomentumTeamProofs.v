(** Lift from one agent to the whole timeline: teams, histories, the queue search. *)
From Coq Require Import ZArith List Bool Lia Sorted Arith Permutation.
From Coq Require Import ZifyBool ZifyNat.
From Verif Require Import TimeModel MomentumModel MomentumSpec MomentumHistory MomentumProofs MomentumInvProofs MomentumSlotProofs.
Import ListNotations.
Local Open Scope Z_scope.

(** ** The queue loop, abstractly *)

Definition laterl (evs : list Z) (st : Z) : nat := length (filter (fun t => st <? t) evs).
Lemma later_lel evs a b : a <= b -> (laterl evs b <= laterl evs a)%nat.
Proof.
  intros H. unfold laterl. induction evs as [|t l IH]; simpl; [lia|].
  destruct (Z.ltb_spec b t), (Z.ltb_spec a t); simpl; lia.
Qed.
Lemma later_ltl evs a b : a < b -> In b evs -> (laterl evs b < laterl evs a)%nat.
Proof.
  intros H Hin. assert (Hmono := fun l => later_lel l a b ltac:(lia)). unfold laterl in *.
  induction evs as [|t l IH]; [destruct Hin|]. simpl.
  destruct Hin as [->|Hin].
  - specialize (Hmono l). destruct (Z.ltb_spec b b), (Z.ltb_spec a b); simpl; lia.
  - specialize (IH Hin). destruct (Z.ltb_spec b t), (Z.ltb_spec a t); simpl; lia.
Qed.
Lemma later_all evs st : (laterl evs st <= length evs)%nat.
Proof. unfold laterl. induction evs as [|t l IH]; simpl; [lia|]. destruct (st <? t); simpl; lia. Qed.

Section Queue.
  Variable slot : nat -> Z -> option Z.
  Variable feas : nat -> Z -> Prop.
  Variable evs : list Z.
  Variable all : list nat.
  Variable lo : Z.
  Hypothesis Hslot : forall k st, In k all -> lo <= st ->
    exists r, slot k st = Some r /\ st <= r /\ feas k r /\
      (forall s, st <= s < r -> ~ feas k s) /\ (r = st \/ In r evs).

  Lemma queue_spec (K : nat) : forall fuel queue sched start,
    lo <= start ->
    (forall k, In k (queue ++ sched) -> In k all) ->
    (forall k, In k sched -> feas k start) ->
    (length queue + length sched <= K)%nat ->
    (fuel > laterl evs start * (K + 1) + length queue)%nat ->
    exists r, queue_loop fuel slot queue sched start = Some r /\ start <= r /\
      (forall k, In k (queue ++ sched) -> feas k r) /\
      (forall s, start <= s < r -> exists k, In k (queue ++ sched) /\ ~ feas k s) /\
      (r = start \/ In r evs).
  Proof.
    induction fuel as [|fuel IH]; intros queue sched start Hlo Hall Hsch Hlen Hfuel; [lia|].
    cbn [queue_loop]. destruct queue as [|k q].
    { exists start. simpl. repeat split; auto; try lia. }
    destruct (Hslot k start) as (f & -> & Hf1 & Hf2 & Hf3 & Hf4); [apply Hall; left; reflexivity|exact Hlo|].
    destruct (Z.ltb_spec f start); [lia|].
    simpl length in *.
    destruct sched as [|s0 sr] eqn:Es.
    - destruct (IH q [k] f) as (r & -> & H1 & H2 & H3 & H4); try lia.
      + intros x Hx. apply Hall. rewrite in_app_iff in Hx. simpl in *. rewrite app_nil_r. tauto.
      + intros x [<-|[]]; exact Hf2.
      + simpl; lia.
      + assert (Hl := later_lel evs start f ltac:(lia)). nia.
      + exists r. split; [reflexivity|]. split; [lia|]. split; [|split].
        * intros x Hx. apply H2. rewrite in_app_iff. simpl in *. rewrite app_nil_r in Hx. tauto.
        * intros s Hs. destruct (Z.lt_ge_cases s f) as [Hsf|Hsf].
          -- exists k. split; [left; reflexivity|apply Hf3; lia].
          -- destruct (H3 s ltac:(lia)) as (x & Hx & Hnx). exists x. split; [|exact Hnx].
             rewrite in_app_iff in Hx. simpl in *. rewrite app_nil_r. tauto.
        * destruct H4 as [->|H4]; [exact Hf4|right; exact H4].
    - rewrite <- Es in *. destruct (Z.eqb_spec start f) as [Heq|Hne].
      + subst f. destruct (IH q (sched ++ [k]) start) as (r & -> & H1 & H2 & H3 & H4); try lia.
        * intros x Hx. apply Hall. simpl. rewrite !in_app_iff in *. simpl in Hx. tauto.
        * intros x Hx. rewrite in_app_iff in Hx. destruct Hx as [Hx|[<-|[]]]; auto.
        * rewrite app_length. simpl. lia.
        * exists r. split; [reflexivity|]. split; [lia|]. split; [|split].
          -- intros x Hx. apply H2. simpl in Hx. rewrite !in_app_iff in *. simpl. tauto.
          -- intros s Hs. destruct (H3 s Hs) as (x & Hx & Hnx). exists x. split; [|exact Hnx].
             simpl. rewrite !in_app_iff in *. simpl in Hx. tauto.
          -- exact H4.
      + destruct (IH (q ++ sched) [k] f) as (r & Hr & H1 & H2 & H3 & H4); try lia.
        * intros x Hx. apply Hall. simpl. rewrite !in_app_iff in *. simpl in Hx. tauto.
        * intros x [<-|[]]; exact Hf2.
        * rewrite app_length. simpl. lia.
        * rewrite app_length. destruct Hf4 as [->|Hf4]; [lia|].
          assert (Hl := later_ltl evs start f ltac:(lia) Hf4). nia.
        * exists r. assert (Hm : match sched with [] => queue_loop fuel slot q [k] f
                          | _ :: _ => queue_loop fuel slot (q ++ sched) [k] f end
                          = queue_loop fuel slot (q ++ sched) [k] f) by (rewrite Es; reflexivity).
          split; [rewrite <- Hr; reflexivity|]. split; [lia|]. split; [|split].
          -- intros x Hx. apply H2. simpl in Hx. rewrite !in_app_iff in *. simpl. tauto.
          -- intros s Hs. destruct (Z.lt_ge_cases s f) as [Hsf|Hsf].
             ++ exists k. split; [left; reflexivity|apply Hf3; lia].
             ++ destruct (H3 s ltac:(lia)) as (x & Hx & Hnx). exists x. split; [|exact Hnx].
                simpl. rewrite !in_app_iff in *. simpl in Hx. tauto.
          -- destruct H4 as [->|H4]; [exact Hf4|right; exact H4].
  Qed.

End Queue.

(** ** The whole timeline *)

Lemma agent_eqb_iff a b : agent_eqb a b = true <-> a = b.
Proof.
  unfold agent_eqb. destruct a, b. simpl. rewrite andb_true_iff, !Nat.eqb_eq. intuition congruence.
Qed.
Lemma agent_eqb_refl a : agent_eqb a a = true.
Proof. apply agent_eqb_iff; reflexivity. Qed.
Lemma agent_eqb_neq a b : a <> b -> agent_eqb a b = false.
Proof. intros H. destruct (agent_eqb a b) eqn:E; [|reflexivity]. apply agent_eqb_iff in E; congruence. Qed.

Lemma tl_get_set_same tl a s : tl_get tl a <> None -> tl_get (tl_set tl a s) a = Some s.
Proof.
  induction tl as [|[b s0] r IH]; simpl; [congruence|].
  destruct (agent_eqb b a) eqn:E; intros H; simpl; rewrite E; auto.
Qed.
Lemma tl_get_set_other tl a b s : a <> b -> tl_get (tl_set tl a s) b = tl_get tl b.
Proof.
  intros Hab. induction tl as [|[x s0] r IH]; simpl; [reflexivity|].
  destruct (agent_eqb x a) eqn:E; simpl.
  - apply agent_eqb_iff in E. subst x. rewrite (agent_eqb_neq a b Hab). reflexivity.
  - destruct (agent_eqb x b); auto.
Qed.

Lemma bookings_of_app h1 h2 a : bookings_of (h1 ++ h2) a = bookings_of h1 a ++ bookings_of h2 a.
Proof.
  induction h1 as [|[[c k] b] r IH]; simpl; [reflexivity|].
  destruct (Nat.eqb c (fst a) && Nat.eqb k (snd a)); simpl; rewrite IH; reflexivity.
Qed.
Lemma load_app l1 l2 t : load (l1 ++ l2) t = load l1 t + load l2 t.
Proof. induction l1 as [|b r IH]; simpl; [reflexivity|]. rewrite IH. lia. Qed.

Lemma bookings_of_perm h h' a : Permutation h h' -> Permutation (bookings_of h a) (bookings_of h' a).
Proof.
  induction 1 as [| [[c k] b] l l' HP IH | [[c k] b] [[c' k'] b'] l | l l' l'' H1 IH1 H2 IH2]; simpl.
  - constructor.
  - destruct (_ && _); [constructor|]; exact IH.
  - destruct (Nat.eqb c (fst a) && Nat.eqb k (snd a)), (Nat.eqb c' (fst a) && Nat.eqb k' (snd a));
      try apply Permutation_refl. constructor.
  - eapply perm_trans; eauto.
Qed.
Lemma load_perm l l' t : Permutation l l' -> load l t = load l' t.
Proof. induction 1; simpl; lia. Qed.
Lemma inv_perm cap n bs bs' st : Permutation bs bs' -> agent_inv cap n bs st -> agent_inv cap n bs' st.
Proof.
  intros HP [H1 H2 H3 H4 H5 H6 H7]. constructor; auto.
  - intros t Ht. rewrite H3 by exact Ht. rewrite (load_perm _ _ t HP). reflexivity.
  - intros b Hb. apply H4. eapply Permutation_in; [symmetry; exact HP|exact Hb].
  - intros b Hb. apply H5. eapply Permutation_in; [symmetry; exact HP|exact Hb].
Qed.

Definition minv (p : pool) (h : history) (s : mstate) : Prop :=
  0 <= m_index s <= TIME_INF /\
  forall a, match capacity p a with
            | Some cap => exists st, tl_get (m_tl s) a = Some st /\ agent_inv cap (m_index s) (bookings_of h a) st
            | None => tl_get (m_tl s) a = None
            end.

Lemma momentum_init_inv p : (forall a n, In (a, n) p -> 0 <= n) -> minv p [] (momentum_init p).
Proof.
  intros Hp. split; [unfold TIME_INF; simpl; lia|].
  intros a. unfold momentum_init. simpl m_tl. simpl m_index.
  induction p as [|[[c k] n] r IH]; simpl; [reflexivity|].
  unfold agent_eqb. simpl. destruct (Nat.eqb c (fst a) && Nat.eqb k (snd a)).
  - exists (initial_state n). split; [reflexivity|]. apply init_inv. apply (Hp (c, k)). left; reflexivity.
  - apply IH. intros a' n' H. apply (Hp a'). right; exact H.
Qed.

Definition wagent (w : worker) : agent := (w_contractor w, w_kind w).
Definition team_of (team : list worker) : list (agent * Z) := map (fun w => (wagent w, w_count w)) team.

(** State reached in the middle of a team: agents already booked have counter n+1. *)
Lemma update_team_spec p h s e : forall team n tl,
  0 <= n < TIME_INF -> 0 <= s < e -> e <= TIME_INF ->
  NoDup (map wagent team) -> (forall w, In w team -> 0 <= w_count w) ->
  (forall a, match capacity p a with
             | Some cap => exists st, tl_get tl a = Some st /\
                  exists m, (m = n \/ (m = n + 1 /\ ~ In a (map wagent team))) /\ agent_inv cap m (bookings_of h a) st
             | None => tl_get tl a = None
             end) ->
  (team_fits p h (team_of team) s (e - s) ->
     exists tl', update_team n s e team tl = Some tl') /\
  (forall tl', update_team n s e team tl = Some tl' ->
     team_fits p h (team_of team) s (e - s) /\
     forall a, match capacity p a with
             | Some cap => exists st, tl_get tl' a = Some st /\
                  agent_inv cap (n + 1) (bookings_of (map (fun w => (wagent w, Bk s e (w_count w))) team ++ h) a) st
             | None => tl_get tl' a = None
             end).
Proof.
  (* generalise over the ghost history *)
  intros team. revert h. induction team as [|w r IH]; intros h n tl Hn Hse Hinf Hnd Hcnt Hinv.
  - simpl. split; [intros _; eexists; reflexivity|].
    intros tl' [= <-]. split; [intros a x []|].
    intros a. specialize (Hinv a). destruct (capacity p a) as [cap|]; [|exact Hinv].
    destruct Hinv as (st & Hg & m & Hm & Hi). exists st. split; [exact Hg|].
    apply (inv_more _ m); [exact Hi|]. lia.
  - cbn [update_team map]. fold (wagent w).
    inversion Hnd as [|? ? Hnotin Hnd']; subst.
    assert (Hw0 : 0 <= w_count w) by (apply Hcnt; left; reflexivity).
    assert (Hinvw := Hinv (wagent w)).
    destruct (capacity p (wagent w)) as [cap|] eqn:Ecap.
    2:{ rewrite Hinvw. split; [|discriminate].
        intros Hf. destruct (Hf (wagent w) (w_count w)) as (cap & Hc & _); [left; reflexivity|congruence]. }
    destruct Hinvw as (st & Hg & m & Hm & Hi). rewrite Hg.
    assert (Hmn : m = n). { destruct Hm as [?|[_ Hc]]; [assumption|]. exfalso; apply Hc; left; reflexivity. }
    subst m. clear Hm.
    rewrite (update_state_eq cap n _ st s e (w_count w) Hi Hse Hinf Hw0).
    assert (Hbf := bookable_fits cap n _ st s e (w_count w) Hi Hse).
    destruct (bookable s e (w_count w) st) eqn:Eb.
    2:{ split; [|discriminate]. intros Hf.
        destruct (Hf (wagent w) (w_count w)) as (cap' & Hc & Hfit); [left; reflexivity|].
        assert (cap' = cap) by congruence. subst. apply Hbf in Hfit. congruence. }
    set (st' := booked_state n s e (w_count w) st).
    assert (Hi' : agent_inv cap (n + 1) (Bk s e (w_count w) :: bookings_of h (wagent w)) st')
      by (apply booked_inv; auto; lia).
    set (h' := (wagent w, Bk s e (w_count w)) :: h).
    assert (Hsame : forall a, a <> wagent w -> bookings_of h' a = bookings_of h a).
    { intros a Ha. unfold h'. simpl. unfold wagent in *.
      destruct a as [c k]; simpl in *.
      destruct (Nat.eqb_spec (w_contractor w) c), (Nat.eqb_spec (w_kind w) k); simpl; auto.
      subst; congruence. }
    assert (Hown : bookings_of h' (wagent w) = Bk s e (w_count w) :: bookings_of h (wagent w)).
    { unfold h', wagent. simpl. rewrite !Nat.eqb_refl. reflexivity. }
    destruct (IH h' n (tl_set tl (wagent w) st')) as [IH1 IH2]; auto.
    { intros x Hx. apply Hcnt. right; exact Hx. }
    { intros a. destruct (agent_eqb (wagent w) a) eqn:Ea.
      - apply agent_eqb_iff in Ea. subst a. rewrite Ecap. exists st'.
        split; [apply tl_get_set_same; congruence|]. exists (n + 1). split; [right; auto|].
        rewrite Hown. exact Hi'.
      - assert (Hne : wagent w <> a) by (intros E; rewrite E, agent_eqb_refl in Ea; discriminate).
        rewrite tl_get_set_other by exact Hne. specialize (Hinv a).
        destruct (capacity p a) as [cap'|]; [|exact Hinv].
        destruct Hinv as (sta & Hga & m & Hm & Hia). exists sta. split; [exact Hga|].
        exists m. rewrite Hsame by congruence. split; [|exact Hia].
        destruct Hm as [?|[? Hm]]; [left; assumption|right; split; [assumption|]].
        intros Hin; apply Hm; right; exact Hin. }
    assert (Hfitr : forall a x, In (a, x) (team_of r) -> bookings_of h' a = bookings_of h a).
    { intros a x Hin. apply Hsame. intros Ea. apply Hnotin.
      unfold team_of in Hin. apply in_map_iff in Hin as (w' & E & Hin).
      apply in_map_iff. exists w'. split; [congruence|exact Hin]. }
    split.
    + intros Hf. apply IH1. intros a x Hin.
      destruct (Hf a x) as (cap' & Hc & Hfit); [right; exact Hin|].
      exists cap'. split; [exact Hc|]. rewrite (Hfitr a x Hin). exact Hfit.
    + intros tl' Htl'. destruct (IH2 tl' Htl') as [Hf Hinv']. split.
      * intros a x [[= <- <-]|Hin].
        -- exists cap. split; [exact Ecap|]. apply Hbf; reflexivity.
        -- destruct (Hf a x Hin) as (cap' & Hc & Hfit). exists cap'. split; [exact Hc|].
           rewrite <- (Hfitr a x Hin). exact Hfit.
      * intros a. specialize (Hinv' a). destruct (capacity p a) as [cap'|]; [|exact Hinv'].
        destruct Hinv' as (sta & Hga & Hia). exists sta. split; [exact Hga|].
        eapply inv_perm; [|exact Hia]. apply bookings_of_perm. unfold h'.
        symmetry. apply Permutation_middle.
Qed.

Lemma wagent_to_workers team : map wagent (to_workers team) = map fst team.
Proof. unfold to_workers. rewrite map_map. apply map_ext. intros [[c k] n]. reflexivity. Qed.
Lemma team_of_to_workers team : team_of (to_workers team) = team.
Proof.
  unfold team_of, to_workers. rewrite map_map. rewrite <- (map_id team) at 2.
  apply map_ext. intros [[c k] n]. reflexivity.
Qed.
Lemma in_to_workers team w : In w (to_workers team) -> In (wagent w, w_count w) team.
Proof.
  unfold to_workers. intros H. apply in_map_iff in H as ([[c k] n] & <- & H). exact H.
Qed.

Lemma tsub_exact a b : 0 <= b <= a -> a <= TIME_INF -> tsub a b = a - b.
Proof. intros. unfold tsub, set_time. destruct (Z.ltb_spec TIME_INF (a-b)); [lia|]. destruct (Z.ltb_spec (a-b) (-TIME_INF)); unfold TIME_INF in *; lia. Qed.
Lemma tadd_exact a b : 0 <= a -> 0 <= b -> a + b <= TIME_INF -> tadd a b = a + b.
Proof. intros. unfold tadd, set_time. destruct (Z.ltb_spec TIME_INF (a+b)); [lia|]. destruct (Z.ltb_spec (a+b) (-TIME_INF)); unfold TIME_INF in *; lia. Qed.

Lemma minv_perm p h h' s : Permutation h h' -> minv p h s -> minv p h' s.
Proof.
  intros HP [Hn H]. split; [exact Hn|]. intros a. specialize (H a).
  destruct (capacity p a); [|exact H]. destruct H as (st & Hg & Hi). exists st. split; [exact Hg|].
  eapply inv_perm; [|exact Hi]. apply bookings_of_perm. exact HP.
Qed.

Lemma update_timeline_spec p h s f d team : minv p h s -> m_index s < TIME_INF ->
  0 <= d <= f -> f <= TIME_INF -> team_ok team ->
  ((d = 0 \/ team_fits p h team (f - d) d) ->
     exists s', update_timeline f d (to_workers team) s = Some s') /\
  (forall s', update_timeline f d (to_workers team) s = Some s' ->
     (d = 0 \/ team_fits p h team (f - d) d) /\
     minv p (booked (Rq f d team) ++ h) s' /\ m_index s' <= m_index s + 1).
Proof.
  intros [Hn Hinv] Hlt Hd Hf [Hnd Hcnt]. unfold update_timeline, booked. simpl rq_duration. simpl rq_finish. simpl rq_team.
  destruct (Z.eqb_spec d 0) as [->|Hd0].
  { split; [intros _; eexists; reflexivity|]. intros s' [= <-]. split; [left; reflexivity|].
    split; [split; [exact Hn|exact Hinv]|lia]. }
  rewrite tsub_exact by lia.
  destruct (update_team_spec p h (f - d) f (to_workers team) (m_index s) (m_tl s)) as [H1 H2]; try lia.
  { rewrite wagent_to_workers. exact Hnd. }
  { intros w Hw. apply in_to_workers in Hw. apply (Hcnt _ _ Hw). }
  { intros a. specialize (Hinv a). destruct (capacity p a); [|exact Hinv].
    destruct Hinv as (st & Hg & Hi). exists st. split; [exact Hg|]. exists (m_index s). split; [left; reflexivity|exact Hi]. }
  rewrite team_of_to_workers in *. replace (f - (f - d)) with d in * by lia.
  split.
  - intros [?|Hfit]; [lia|]. destruct (H1 Hfit) as (tl' & ->). eexists; reflexivity.
  - intros s' Hs'. destruct (update_team (m_index s) (f - d) f (to_workers team) (m_tl s)) as [tl'|] eqn:E; [|discriminate].
    injection Hs' as <-. destruct (H2 tl' eq_refl) as [Hfit Hinv']. split; [right; exact Hfit|].
    simpl m_index. split; [|lia]. split; [simpl; lia|]. simpl m_tl; simpl m_index.
    intros a. specialize (Hinv' a). destruct (capacity p a); [|exact Hinv'].
    destruct Hinv' as (st & Hg & Hi). exists st. split; [exact Hg|].
    unfold to_workers in Hi. rewrite map_map in Hi. simpl in Hi.
    assert (Emap : map (fun x : agent * Z => (wagent (Wk (fst (fst x)) (snd (fst x)) (snd x)), Bk (f - d) f (snd x))) team
            = map (fun w : agent * Z => (fst w, Bk (f - d) f (snd w))) team).
    { apply map_ext. intros [[c k] n]. reflexivity. }
    rewrite <- Emap. exact Hi.
Qed.

Lemma all_booked_cons r rs : all_booked (r :: rs) = booked r ++ all_booked rs.
Proof. reflexivity. Qed.

Lemma run_requests_inv p : forall rs h s s',
  minv p h s -> Forall request_ok rs -> m_index s + Z.of_nat (length rs) <= TIME_INF ->
  run_requests rs s = Some s' ->
  minv p (all_booked rs ++ h) s' /\ m_index s' <= m_index s + Z.of_nat (length rs).
Proof.
  induction rs as [|r rs IH]; intros h s s' Hi Hok Hlen Hrun.
  - simpl in Hrun. injection Hrun as <-. simpl. split; [exact Hi|lia].
  - cbn [run_requests] in Hrun.
    inversion Hok as [|? ? (Hd & Hf & Ht) Hok']; subst.
    cbn [length] in *.
    destruct (update_timeline_spec p h s (rq_finish r) (rq_duration r) (rq_team r) Hi ltac:(lia) Hd Hf Ht) as [_ Hu].
    destruct (update_timeline (rq_finish r) (rq_duration r) (to_workers (rq_team r)) s) as [s1|] eqn:E; [|discriminate].
    destruct (Hu s1 eq_refl) as (_ & Hi1 & Hn1).
    destruct (IH _ _ _ Hi1 Hok' ltac:(lia) Hrun) as [Hi2 Hn2].
    split; [|lia]. eapply minv_perm; [|exact Hi2].
    rewrite all_booked_cons. destruct r; simpl in *. rewrite !app_assoc. apply Permutation_app_tail.
    apply Permutation_app_comm.
Qed.

Lemma timeline_after_inv p rs s : (forall a n, In (a, n) p -> 0 <= n) -> Forall request_ok rs ->
  Z.of_nat (length rs) <= TIME_INF -> timeline_after p rs = Some s -> minv p (all_booked rs) s.
Proof.
  intros Hp Hok Hlen Hrun. rewrite <- (app_nil_r (all_booked rs)).
  apply (run_requests_inv p rs [] (momentum_init p)); auto. apply momentum_init_inv. exact Hp.
Qed.

(** ** Reading the timeline *)

Lemma bookings_load_nonneg p h s a t : minv p h s -> (forall x b, In (x, b) h -> 0 <= b_count b) ->
  0 <= load (bookings_of h a) t.
Proof.
  intros _ H. induction h as [|[[c k] b] r IH]; simpl; [lia|].
  assert (0 <= b_count b) by (apply (H (c,k)); left; reflexivity).
  assert (0 <= load (bookings_of r a) t) by (apply IH; intros x b' Hb'; apply (H x); right; exact Hb').
  destruct (_ && _); simpl; [|lia]. destruct (active b t); lia.
Qed.

Lemma validate_team_spec p h s st e team : minv p h s -> 0 <= st < e -> 
  (validate_team st e (to_workers team) (m_tl s) = true <-> team_fits p h team st (e - st)).
Proof.
  intros [Hn Hinv] Hse. induction team as [|[[c k] n] r IH]; simpl.
  - split; [intros _ a x []|reflexivity].
  - assert (Ha := Hinv (c, k)). destruct (capacity p (c, k)) as [cap|] eqn:Ec.
    + destruct Ha as (sta & Hg & Hi). rewrite Hg.
      rewrite (validate_state_eq cap (m_index s) _ _ st e n Hi Hse).
      assert (Hbf := bookable_fits cap (m_index s) _ _ st e n Hi Hse).
      rewrite andb_true_iff, IH, Hbf. split.
      * intros [Hf Hr] a x [[= <- <-]|Hin]; [exists cap; auto|apply Hr; exact Hin].
      * intros H. split; [|intros a x Hin; apply H; right; exact Hin].
        destruct (H (c, k) n (or_introl eq_refl)) as (cap' & Hc & Hf). assert (cap' = cap) by congruence. subst. exact Hf.
    + rewrite Ha. split; [discriminate|]. intros H.
      destruct (H (c, k) n (or_introl eq_refl)) as (cap' & Hc & _). congruence.
Qed.

Lemma can_schedule_team_spec p h s st e team : minv p h s -> 0 <= st < e ->
  (forall x b, In (x, b) h -> 0 <= b_count b) ->
  (forall a n, In (a, n) team -> capacity p a <> None) ->
  exists b, can_schedule_team st e (to_workers team) (m_tl s) = Some b /\
    (b = true <-> team_fits p h team st (e - st)).
Proof.
  intros Hm Hse Hpos. assert (Hm' := Hm). destruct Hm as [Hn Hinv].
  induction team as [|[[c k] n] r IH]; intros Hknown; simpl.
  - exists true. split; [reflexivity|]. split; [intros _ a x []|reflexivity].
  - assert (Ha := Hinv (c, k)). destruct (capacity p (c, k)) as [cap|] eqn:Ec.
    2:{ exfalso. apply (Hknown (c, k) n); [left; reflexivity|exact Ec]. }
    destruct Ha as (sta & Hg & Hi). rewrite Hg.
    assert (Hcs : can_schedule_state st e n sta = Some (bookable st e n sta)).
    { rewrite <- (validate_state_eq cap (m_index s) _ _ st e n Hi Hse).
      unfold can_schedule_state, validate_state.
      destruct (index_parts _ _ _ _ st e Hi Hse) as [-> ->].
      assert (Hp := parts st e sta (ai_sorted _ _ _ _ Hi) ltac:(lia)).
      assert (HneA := partA_ne _ _ _ _ st Hi ltac:(lia)).
      assert (Hlev : ev_cnt (last (partA st sta) d0) <= cap).
      { assert (Hl := ai_level _ _ _ _ Hi st ltac:(lia)).
        rewrite (level_ge_partA _ _ _ _ _ Hi) in Hl by lia.
        assert (H0 := bookings_load_nonneg p h s (c, k) st Hm' Hpos). lia. }
      set (A := partA st sta) in *. set (B := partB st e sta) in *.
      assert (Hpy : py_nth sta (Z.of_nat (length A) - 1) = Some (last A d0)).
      { rewrite Hp at 1. apply py_nth_last; exact HneA. }
      rewrite Hpy. destruct (ai_shape _ _ _ _ Hi) as (rest & Hsh & _).
      assert (Hini : py_nth sta 0 = Some (Ev (-1) INITIAL 0 cap)) by (rewrite Hsh; reflexivity).
      rewrite Hini. simpl ev_cnt at 4. destruct (Z.leb_spec (ev_cnt (last A d0)) cap); [|lia].
      rewrite andb_true_r. reflexivity. }
    cbn [can_schedule_team to_workers map w_contractor w_kind w_count fst snd].
    rewrite Hcs. assert (Hbf := bookable_fits cap (m_index s) _ _ st e n Hi Hse).
    destruct IH as (b & Hb & Hbi). { intros a x Hin. apply (Hknown a x). right; exact Hin. }
    destruct (bookable st e n sta) eqn:Eb.
    + exists b. split; [exact Hb|]. rewrite Hbi. split.
      * intros Hr a x [[= <- <-]|Hin]; [exists cap; split; [exact Ec|apply Hbf; reflexivity]|apply Hr; exact Hin].
      * intros H a x Hin; apply H; right; exact Hin.
    + exists false. split; [reflexivity|]. split; [discriminate|].
      intros H. destruct (H (c, k) n (or_introl eq_refl)) as (cap' & Hc & Hf).
      assert (cap' = cap) by congruence. subst. apply Hbf in Hf. discriminate.
Qed.

(** ** The search over a team *)

Notation kteam := team_of_contractor.

Lemma type2count_spec c team k : NoDup (map fst team) ->
  type2count (to_workers (kteam c team)) k
  = match find (fun x => Nat.eqb (fst x) k) team with Some x => Some (snd x) | None => None end.
Proof.
  induction team as [|[k' n] r IH]; simpl; intros Hnd; [reflexivity|].
  inversion Hnd as [|? ? Hni Hnd']; subst. unfold to_workers, team_of_contractor in *. rewrite (IH Hnd').
  destruct (Nat.eqb_spec k' k) as [->|Hne].
  - destruct (find (fun x => Nat.eqb (fst x) k) r) as [[k2 n2]|] eqn:E; [|reflexivity].
    apply find_some in E as [Hin Heq]. simpl in Heq. apply Nat.eqb_eq in Heq. subst k2.
    exfalso. apply Hni. apply in_map_iff. exists (k, n2). auto.
  - destruct (find (fun x => Nat.eqb (fst x) k) r); reflexivity.
Qed.

Lemma find_in_team (team : list (nat * Z)) k n : NoDup (map fst team) -> In (k, n) team ->
  find (fun x => Nat.eqb (fst x) k) team = Some (k, n).
Proof.
  induction team as [|[k' n'] r IH]; simpl; [intros _ []|]. intros Hnd [[= -> ->]|Hin].
  - rewrite Nat.eqb_refl. reflexivity.
  - inversion Hnd as [|? ? Hni Hnd']; subst. destruct (Nat.eqb_spec k' k) as [->|Hne]; [|auto].
    exfalso. apply Hni. apply in_map_iff. exists (k, n). auto.
Qed.

Lemma lacks_workers_spec p h s c team : minv p h s ->
  (forall k n, In (k, n) team -> capacity p (c, k) <> None) ->
  exists b, lacks_workers (m_tl s) c (map fst team) (to_workers (kteam c team)) = Some b /\
    (b = true <-> exists k n cap, In (k, n) team /\ capacity p (c, k) = Some cap /\ cap < n).
Proof.
  intros [Hn Hinv]. induction team as [|[k n] r IH]; intros Hknown; simpl.
  - exists false. split; [reflexivity|]. split; [discriminate|]. intros (k & n & cap & [] & _).
  - assert (Ha := Hinv (c, k)). destruct (capacity p (c, k)) as [cap|] eqn:Ec.
    2:{ exfalso. apply (Hknown k n); [left; reflexivity|exact Ec]. }
    destruct Ha as (sta & Hg & Hi). rewrite Hg.
    destruct (ai_shape _ _ _ _ Hi) as (rest & -> & _). simpl ev_cnt.
    destruct (Z.ltb_spec cap n) as [Hlt|Hge].
    + exists true. split; [reflexivity|]. split; [|reflexivity]. intros _. exists k, n, cap. auto.
    + destruct IH as (b & Hb & Hbi). { intros k' n' Hin. apply (Hknown k' n'). right; exact Hin. }
      exists b. split; [exact Hb|]. rewrite Hbi. split; intros (k' & n' & cap' & Hin & Hc & Hl).
      * exists k', n', cap'. auto.
      * destruct Hin as [[= <- <-]|Hin]; [|exists k', n', cap'; auto].
        assert (cap' = cap) by congruence. lia.
Qed.

Lemma chain_lacks_spec tl c reqs team b : lacks_workers tl c reqs team = Some b ->
  forall chain : list (bool * list nat), chain <> [] -> (forall x, In x chain -> snd x = reqs) ->
  chain_lacks_workers tl c (map snd chain) team = Some b.
Proof.
  intros Hb. induction chain as [|[sv rq] r IH]; [congruence|]. intros _ Hall.
  simpl. assert (rq = reqs) by (apply (Hall (sv, rq)); left; reflexivity). subst rq. rewrite Hb.
  destruct b; [reflexivity|]. destruct r as [|x r']; [reflexivity|].
  apply IH; [discriminate|]. intros y Hy. apply Hall. right; exact Hy.
Qed.

Lemma tl_get_In tl a st : tl_get tl a = Some st -> exists b, In (b, st) tl.
Proof.
  induction tl as [|[b s0] r IH]; simpl; [discriminate|].
  destruct (agent_eqb b a); intros H; [injection H as ->; eauto|].
  destruct (IH H) as (b' & Hb'). eauto.
Qed.

Definition all_times (tl : timeline) : list Z := concat (map (fun p => map ev_time (snd p)) tl).
Lemma all_times_len tl : length (all_times tl) = list_sum (map (fun p => length (snd p)) tl).
Proof.
  unfold all_times. induction tl as [|x r IH]; [reflexivity|]. cbn [map concat list_sum fold_right].
  rewrite app_length, map_length, IH. reflexivity.
Qed.
Lemma all_times_in tl a st x : tl_get tl a = Some st -> In x st -> In (ev_time x) (all_times tl).
Proof.
  intros Hg Hx. destruct (tl_get_In _ _ _ Hg) as (b & Hin). unfold all_times.
  apply in_concat. exists (map ev_time st). split; [|apply in_map; exact Hx].
  apply in_map_iff. exists (b, st). auto.
Qed.

Section Search.
  Variables (p : pool) (h : history) (s : mstate) (c : nat) (team : list (nat * Z)) (d : Z).
  Hypothesis Hm : minv p h s.
  Hypothesis Hnd : NoDup (map fst team).
  Hypothesis Hd : 0 <= d.
  Hypothesis Henough : forall k n, In (k, n) team -> exists cap, capacity p (c, k) = Some cap /\ n <= cap.

  Definition feas_kind (k : nat) (t : Z) : Prop :=
    exists n cap, In (k, n) team /\ capacity p (c, k) = Some cap /\ fits cap (bookings_of h (c, k)) t d n.

  Lemma feas_kind_fits k n cap t : In (k, n) team -> capacity p (c, k) = Some cap ->
    (feas_kind k t <-> fits cap (bookings_of h (c, k)) t d n).
  Proof.
    intros Hin Hc. split.
    - intros (n' & cap' & Hin' & Hc' & Hf).
      assert (E1 := find_in_team team k n Hnd Hin). assert (E2 := find_in_team team k n' Hnd Hin').
      assert (n' = n) by congruence. assert (cap' = cap) by congruence. subst. exact Hf.
    - intros Hf. exists n, cap. auto.
  Qed.

  Lemma team_fits_feas t :
    (team_fits p h (kteam c team) t d <-> forall k, In k (map fst team) -> feas_kind k t).
  Proof.
    split.
    - intros H k Hk. apply in_map_iff in Hk as ([k' n] & E & Hin). simpl in E. subst k'.
      destruct (H (c, k) n) as (cap & Hc & Hf). { apply in_map_iff. exists (k, n). auto. }
      exists n, cap. auto.
    - intros H a n Hin. apply in_map_iff in Hin as ([k n'] & [= <- ->] & Hin).
      destruct (H k) as (n2 & cap & Hin2 & Hc & Hf). { apply in_map_iff. exists (k, n). auto. }
      exists cap. split; [exact Hc|]. apply (feas_kind_fits k n cap); auto. exists n2, cap; auto.
  Qed.

  Lemma kind_slot_spec k st : In k (map fst team) -> 0 <= st ->
    exists r, kind_slot (m_tl s) c (to_workers (kteam c team)) d false k st = Some r /\ st <= r /\
      feas_kind k r /\ (forall t, st <= t < r -> ~ feas_kind k t) /\ (r = st \/ In r (all_times (m_tl s))).
  Proof.
    intros Hk Hst. apply in_map_iff in Hk as ([k' n] & E & Hin). simpl in E. subst k'.
    destruct (Henough k n Hin) as (cap & Hc & Hle). destruct Hm as [Hn Hinv].
    assert (Ha := Hinv (c, k)). rewrite Hc in Ha. destruct Ha as (sta & Hg & Hi).
    unfold kind_slot. rewrite Hg, type2count_spec by exact Hnd.
    rewrite (find_in_team team k n Hnd Hin). simpl snd.
    destruct (slot_spec cap (m_index s) _ sta st d n Hi Hst Hd Hle) as (r & Hr & (H1 & H2 & H3) & H4).
    exists r. split; [exact Hr|]. split; [exact H1|]. split; [|split].
    - apply (feas_kind_fits k n cap); auto.
    - intros t Ht Hf. apply (feas_kind_fits k n cap) in Hf; auto. apply (H3 t Ht Hf).
    - destruct H4 as [H4|(x & Hx & H4)]; [left; exact H4|right]. rewrite <- H4.
      eapply all_times_in; eauto.
  Qed.

  Lemma find_min_start_time_spec chain pt : 0 <= pt ->
    chain <> [] -> (forall x, In x chain -> snd x = map fst team) -> forallb fst chain = false ->
    exists r, find_min_start_time (m_tl s) c chain false pt d (to_workers (kteam c team)) = Some r /\
      pt <= r /\ team_fits p h (kteam c team) r d /\
      (forall t, pt <= t < r -> ~ team_fits p h (kteam c team) t d).
  Proof.
    intros Hpt Hne Hall Hsv. unfold find_min_start_time. rewrite Hsv.
    destruct (lacks_workers_spec p h s c team Hm) as (b & Hb & Hbi).
    { intros k n Hin. destruct (Henough k n Hin) as (cap & -> & _). discriminate. }
    rewrite (chain_lacks_spec _ _ _ _ _ Hb chain Hne Hall).
    destruct b.
    { exfalso. destruct (proj1 Hbi eq_refl) as (k & n & cap & Hin & Hc & Hl).
      destruct (Henough k n Hin) as (cap' & Hc' & Hle). assert (cap' = cap) by congruence. lia. }
    destruct chain as [|[sv rq] rest]; [congruence|].
    assert (rq = map fst team) by (apply (Hall (sv, rq)); left; reflexivity). subst rq.
    destruct (queue_spec (kind_slot (m_tl s) c (to_workers (kteam c team)) d false)
                feas_kind (all_times (m_tl s)) (map fst team) 0) with
      (K := length (map fst team)) (fuel := queue_fuel (m_tl s) (map fst team))
      (queue := map fst team) (sched := @nil nat) (start := pt) as (r & Hr & H1 & H2 & H3 & _).
    - intros k st Hk Hst. apply kind_slot_spec; auto.
    - exact Hpt.
    - intros k Hk. rewrite app_nil_r in Hk. exact Hk.
    - intros k [].
    - simpl. lia.
    - unfold queue_fuel. rewrite <- all_times_len. assert (Hl := later_all (all_times (m_tl s)) pt). nia.
    - exists r. split; [exact Hr|]. split; [exact H1|]. rewrite app_nil_r in H2. split.
      + apply team_fits_feas. exact H2.
      + intros t Ht Hf. rewrite app_nil_r in H3. destruct (H3 t Ht) as (k & Hk & Hnk).
        apply Hnk. apply team_fits_feas; assumption.
  Qed.
End Search.

Lemma find_min_start_time_lacks p h s c team d ind chain pt : minv p h s ->
  (forall k n, In (k, n) team -> capacity p (c, k) <> None) ->
  (exists k n cap, In (k, n) team /\ capacity p (c, k) = Some cap /\ cap < n) ->
  chain <> [] -> (forall x, In x chain -> snd x = map fst team) -> forallb fst chain = false ->
  find_min_start_time (m_tl s) c chain ind pt d (to_workers (kteam c team)) = Some TIME_INF.
Proof.
  intros Hm Hk Hlack Hne Hall Hsv. unfold find_min_start_time. rewrite Hsv.
  destruct (lacks_workers_spec p h s c team Hm Hk) as (b & Hb & Hbi).
  rewrite (chain_lacks_spec _ _ _ _ _ Hb chain Hne Hall).
  rewrite (proj2 Hbi Hlack). reflexivity.
Qed.

(** ** Facts in the form of the theorem statements *)

Lemma free_at_level st t : (exists x, In x st /\ ev_time x <= t) ->
  free_at st t = Some (level st t).
Proof.
  intros H. unfold level.
  assert (G : forall l, free_at l t = match filter (fun e => ev_time e <=? t) l with
                                       | [] => None | f => Some (ev_cnt (last f d0)) end).
  { induction l as [|e r IH]; [reflexivity|]. cbn [free_at filter]. rewrite IH.
    destruct (ev_time e <=? t).
    - destruct (filter (fun e0 => ev_time e0 <=? t) r) as [|y l]; reflexivity.
    - destruct (filter (fun e0 => ev_time e0 <=? t) r); reflexivity. }
  rewrite G. destruct H as (x & Hx & Hxt).
  assert (Hin : In x (filter (fun e => ev_time e <=? t) st)) by (apply filter_In; split; [exact Hx|lia]).
  fold d0. destruct (filter (fun e => ev_time e <=? t) st); [destruct Hin|reflexivity].
Qed.

Lemma minv_busy_le p h s a cap t : minv p h s -> capacity p a = Some cap -> 0 <= t -> busy h a t <= cap.
Proof.
  intros [_ H] Hc Ht. specialize (H a). rewrite Hc in H. destruct H as (st & _ & Hi).
  eapply inv_load_le; eauto.
Qed.

Lemma minv_free p h s a cap : minv p h s -> capacity p a = Some cap ->
  exists st, tl_get (m_tl s) a = Some st /\ forall t, 0 <= t -> free_at st t = Some (cap - busy h a t).
Proof.
  intros [_ H] Hc. specialize (H a). rewrite Hc in H. destruct H as (st & Hg & Hi).
  exists st. split; [exact Hg|]. intros t Ht. rewrite free_at_level.
  - f_equal. apply (ai_level _ _ _ _ Hi). exact Ht.
  - destruct (ai_shape _ _ _ _ Hi) as (r & -> & _). eexists. split; [left; reflexivity|]. simpl. exact Ht.
Qed.

Lemma busy_le_all p rs s a cap t : pool_ok p -> requests_ok rs -> timeline_after p rs = Some s ->
  capacity p a = Some cap -> 0 <= t -> busy (all_booked rs) a t <= cap.
Proof.
  intros Hp [Hr Hl] Hrun Hc Ht. eapply minv_busy_le; eauto. eapply timeline_after_inv; eauto.
Qed.

Lemma count_pos_all rs : Forall request_ok rs -> forall x b, In (x, b) (all_booked rs) -> 0 <= b_count b.
Proof.
  intros Hok x b Hin. unfold all_booked in Hin. apply in_concat in Hin as (l & Hl & Hin).
  apply in_map_iff in Hl as (r & <- & Hr). rewrite Forall_forall in Hok.
  destruct (Hok r Hr) as (_ & _ & _ & Hpos). unfold booked in Hin.
  destruct (rq_duration r =? 0); [destruct Hin|].
  apply in_map_iff in Hin as ([a n] & [= <- <-] & Hin). simpl. apply (Hpos a n Hin).
Qed.

Lemma timeline_length p : forall rs s s', run_requests rs s = Some s' -> 0 <= m_index s ->
  minv p [] s \/ True -> m_index s' <= m_index s + Z.of_nat (length rs).
Proof.
  induction rs as [|r rs IH]; intros s s' Hrun H0 _; cbn [run_requests length] in *.
  - injection Hrun as <-. lia.
  - unfold update_timeline in Hrun. destruct (rq_duration r =? 0).
    + specialize (IH s s' Hrun H0 (or_intror I)). lia.
    + destruct (update_team _ _ _ _ _) as [tl|]; [|discriminate].
      specialize (IH _ s' Hrun ltac:(simpl; lia) (or_intror I)). simpl in IH. lia.
Qed.

Lemma booking_accepted_iff p rs s r : pool_ok p -> requests_ok rs -> timeline_after p rs = Some s ->
  request_ok r -> Z.of_nat (length rs) < TIME_INF -> rq_duration r > 0 ->
  ((exists s', update_timeline (rq_finish r) (rq_duration r) (to_workers (rq_team r)) s = Some s') <->
   team_fits p (all_booked rs) (rq_team r) (rq_finish r - rq_duration r) (rq_duration r)).
Proof.
  intros Hp [Hr Hl] Hrun (Hd & Hf & Ht) Hlen Hpos.
  assert (Hm := timeline_after_inv p rs s Hp Hr Hl Hrun).
  assert (Hidx := timeline_length p rs _ _ Hrun ltac:(simpl; lia) (or_intror I)). simpl in Hidx.
  destruct (update_timeline_spec p _ s (rq_finish r) (rq_duration r) (rq_team r) Hm ltac:(lia) Hd Hf Ht) as [H1 H2].
  split.
  - intros (s' & Hs'). destruct (H2 s' Hs') as [[?|?] _]; [lia|assumption].
  - intros Hfit. apply H1. right. exact Hfit.
Qed.

Lemma slot_free_earliest p rs s a cap pt d w : pool_ok p -> requests_ok rs -> timeline_after p rs = Some s ->
  capacity p a = Some cap -> 0 <= pt -> 0 <= d -> w <= cap ->
  exists st r, tl_get (m_tl s) a = Some st /\
    find_earliest_time_slot st pt d w false = Some r /\
    least_slot cap (bookings_of (all_booked rs) a) pt d w r.
Proof.
  intros Hp [Hr Hl] Hrun Hc Hpt Hd Hw.
  destruct (timeline_after_inv p rs s Hp Hr Hl Hrun) as [_ H]. specialize (H a). rewrite Hc in H.
  destruct H as (st & Hg & Hi). destruct (slot_spec _ _ _ _ pt d w Hi Hpt Hd Hw) as (r & H1 & H2 & _).
  exists st, r. auto.
Qed.

Lemma slot_independent p rs s a cap pt d w : pool_ok p -> requests_ok rs -> timeline_after p rs = Some s ->
  capacity p a = Some cap -> 0 <= pt -> 0 < d -> w <= cap ->
  exists st r, tl_get (m_tl s) a = Some st /\
    find_earliest_time_slot st pt d w true = Some r /\
    pt <= r /\ fits cap (bookings_of (all_booked rs) a) r d w /\
    (forall b, In b (bookings_of (all_booked rs) a) -> b_end b <= r).
Proof.
  intros Hp [Hr Hl] Hrun Hc Hpt Hd Hw.
  destruct (timeline_after_inv p rs s Hp Hr Hl Hrun) as [_ H]. specialize (H a). rewrite Hc in H.
  destruct H as (st & Hg & Hi). destruct (slot_spec_independent _ _ _ _ pt d w Hi Hpt Hd Hw) as (r & H1 & H2 & H3 & H4 & _).
  exists st, r. auto 8.
Qed.

Lemma team_start_earliest p rs s c team d chain pt : pool_ok p -> requests_ok rs -> timeline_after p rs = Some s ->
  NoDup (map fst team) -> 0 <= d -> 0 <= pt ->
  (forall k n, In (k, n) team -> exists cap, capacity p (c, k) = Some cap /\ n <= cap) ->
  chain <> [] -> (forall x, In x chain -> snd x = map fst team) -> forallb fst chain = false ->
  exists r, find_min_start_time (m_tl s) c chain false pt d (to_workers (kteam c team)) = Some r /\
    pt <= r /\ team_fits p (all_booked rs) (kteam c team) r d /\
    (forall t, pt <= t < r -> ~ team_fits p (all_booked rs) (kteam c team) t d).
Proof.
  intros Hp [Hr Hl] Hrun Hnd Hd Hpt Hen Hne Hall Hsv.
  apply find_min_start_time_spec; auto. eapply timeline_after_inv; eauto.
Qed.

Lemma fits_shorter cap bs s d d' w : d' <= d -> fits cap bs s d w -> fits cap bs s d' w.
Proof. intros Hd H t Ht. apply H. lia. Qed.

Lemma validate_fits p h s team st d : minv p h s -> 0 <= st -> 0 <= d -> st + d <= TIME_INF ->
  team_fits p h team st d -> validate (tadd st d) d (to_workers team) (m_tl s) = true.
Proof.
  intros Hm Hst Hd Hinf Hf. unfold validate. destruct (Z.eqb_spec d 0); [reflexivity|].
  rewrite tadd_exact by lia. rewrite tsub_exact by lia.
  replace (st + d - d) with st by lia.
  apply (validate_team_spec p h s st (st + d) team Hm ltac:(lia)).
  replace (st + d - st) with d by lia. exact Hf.
Qed.

Lemma book_found p rs s c team d d' chain pt r : pool_ok p -> requests_ok rs ->
  Z.of_nat (length rs) < TIME_INF -> timeline_after p rs = Some s ->
  NoDup (map fst team) -> (forall k n, In (k, n) team -> 0 <= n) -> 0 <= d' <= d -> 0 <= pt ->
  (forall k n, In (k, n) team -> exists cap, capacity p (c, k) = Some cap /\ n <= cap) ->
  chain <> [] -> (forall x, In x chain -> snd x = map fst team) -> forallb fst chain = false ->
  find_min_start_time (m_tl s) c chain false pt d (to_workers (kteam c team)) = Some r ->
  r + d <= TIME_INF ->
  validate (tadd r d) d (to_workers (kteam c team)) (m_tl s) = true /\
  exists s', update_timeline (r + d') d' (to_workers (kteam c team)) s = Some s'.
Proof.
  intros Hp Hrs Hlen Hrun Hnd Hpos Hd Hpt Hen Hne Hall Hsv Hfind Hinf.
  destruct (team_start_earliest p rs s c team d chain pt Hp Hrs Hrun Hnd ltac:(lia) Hpt Hen Hne Hall Hsv)
    as (r' & Hr' & H1 & H2 & _).
  assert (r' = r) by congruence. subst r'.
  destruct Hrs as [Hr Hl]. assert (Hm := timeline_after_inv p rs s Hp Hr Hl Hrun).
  split; [apply (validate_fits p (all_booked rs)); auto; lia|].
  assert (Hidx := timeline_length p rs _ _ Hrun ltac:(simpl; lia) (or_intror I)). simpl in Hidx.
  destruct (update_timeline_spec p _ s (r + d') d' (kteam c team) Hm ltac:(lia) ltac:(lia) ltac:(lia)) as [Hu _].
  { split.
    - assert (Emap : map fst (kteam c team) = map (fun k => (c, k)) (map fst team))
        by (unfold team_of_contractor; rewrite !map_map; reflexivity).
      rewrite Emap. apply FinFun.Injective_map_NoDup; [|exact Hnd].
      intros x y [=]; assumption.
    - intros a n Hin. apply in_map_iff in Hin as ([k n'] & [= <- ->] & Hin). eapply Hpos; eauto. }
  apply Hu. right. intros a n Hin. destruct (H2 a n Hin) as (cap & Hc & Hf). exists cap. split; [exact Hc|].
  replace (r + d' - d') with r by lia. eapply fits_shorter; [|exact Hf]. lia.
Qed.

Lemma can_schedule_exact p rs s team st d : pool_ok p -> requests_ok rs -> timeline_after p rs = Some s ->
  0 <= st -> 0 < d -> st + d <= TIME_INF -> (forall a n, In (a, n) team -> capacity p a <> None) ->
  exists b, can_schedule_at_the_moment false (to_workers team) st d (m_tl s) = Some b /\
    (b = true <-> team_fits p (all_booked rs) team st d).
Proof.
  intros Hp [Hr Hl] Hrun Hst Hd Hinf Hk.
  assert (Hm := timeline_after_inv p rs s Hp Hr Hl Hrun).
  unfold can_schedule_at_the_moment. rewrite tadd_exact by lia.
  destruct (can_schedule_team_spec p (all_booked rs) s st (st + d) team Hm ltac:(lia) (count_pos_all rs Hr) Hk) as (b & H1 & H2).
  replace (st + d - st) with d in H2 by lia. exists b. auto.
Qed.
