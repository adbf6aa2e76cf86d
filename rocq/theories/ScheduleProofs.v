(** Lemmas about the list scheduler over the Momentum timeline. *)
From Coq Require Import ZArith List Bool Lia Arith Permutation.
From Coq Require Import ZifyBool ZifyNat.
From Verif Require Import TimeModel MomentumModel MomentumSpec MomentumHistory MomentumTeamProofs
  GraphModel ScheduleModel ScheduleSpec ContractorProofs TeamProofs.
Import ListNotations.
Local Open Scope Z_scope.

Lemma INF_pos : 0 < TIME_INF.
Proof. reflexivity. Qed.
Lemma set_time_cases x : (set_time x = x /\ - TIME_INF <= x <= TIME_INF) \/ (TIME_INF < x /\ set_time x = TIME_INF)
  \/ (x < - TIME_INF /\ set_time x = - TIME_INF).
Proof.
  assert (HINF := INF_pos). unfold set_time.
  repeat match goal with |- context [if ?b then _ else _] => destruct b eqn:? end; lia.
Qed.
Lemma set_time_range x : - TIME_INF <= set_time x <= TIME_INF.
Proof. assert (HINF := INF_pos). destruct (set_time_cases x) as [[E ?]|[[_ E]|[_ E]]]; lia. Qed.
Ltac inf := assert (HINF := INF_pos).
Lemma tmax_spec a b : tmax a b = Z.max a b.
Proof. unfold tmax. destruct (Z.ltb_spec a b); lia. Qed.
Lemma tadd_finite a b : 0 <= a -> 0 <= b -> tadd a b < TIME_INF -> tadd a b = a + b.
Proof. intros Ha Hb H. inf. unfold tadd in *. destruct (set_time_cases (a + b)) as [[E _]|[[_ E]|[? E]]]; lia. Qed.

Lemma tadd_min a b : 0 <= a -> 0 <= b -> tadd a b = Z.min TIME_INF (a + b).
Proof. intros Ha Hb. inf. unfold tadd. destruct (set_time_cases (a + b)) as [[E R]|[[R E]|[R E]]]; lia. Qed.

(** ** Parent times *)

Lemma parent_times_in sd es t : In t (parent_times sd es) <->
  exists e w, In e es /\ sd_get sd (e_from e) = Some w /\ t = tadd (sw_finish w) (e_lag e).
Proof.
  induction es as [|e es IH]; simpl.
  - split; [intros []|]. intros (e & w & [] & _).
  - destruct (sd_get sd (e_from e)) as [w|] eqn:E; [simpl|]; rewrite IH; clear IH; split.
    + intros [<-|(e' & w' & H1 & H2 & H3)]; [exists e, w; auto|exists e', w'; auto].
    + intros (e' & w' & [<-|H1] & H2 & H3); [left; congruence|right; eauto].
    + intros (e' & w' & H1 & H2 & H3); exists e', w'; auto.
    + intros (e' & w' & [<-|H1] & H2 & H3); [congruence|eauto].
Qed.

Lemma fold_tmax_ge l : forall x, x <= fold_left tmax l x /\ (forall y, In y l -> y <= fold_left tmax l x) /\
  (fold_left tmax l x = x \/ In (fold_left tmax l x) l).
Proof.
  induction l as [|y l IH]; intros x; simpl; [split; [lia|split; [intros _ []|left; reflexivity]]|].
  destruct (IH (tmax x y)) as (H1 & H2 & H3). rewrite tmax_spec in *. split; [lia|]. split.
  - intros z [<-|Hz]; [lia|apply H2; exact Hz].
  - destruct H3 as [H3|H3]; [|right; right; exact H3]. rewrite H3.
    destruct (Z.max_spec x y) as [[_ ->]|[_ ->]]; auto.
Qed.
Lemma max_default0_ge l y : In y l -> y <= max_default0 l.
Proof.
  destruct l as [|x l]; [intros []|]. simpl. destruct (fold_tmax_ge l x) as (H1 & H2 & _).
  intros [<-|Hy]; auto.
Qed.
Lemma max_default0_in l : max_default0 l = 0 \/ In (max_default0 l) l.
Proof.
  destruct l as [|x l]; [left; reflexivity|]. simpl. destruct (fold_tmax_ge l x) as (_ & _ & [H|H]); [rewrite H; auto|auto].
Qed.
Lemma min_start_ge g sd e w : In e (g_edges g) -> sd_get sd (e_from e) = Some w ->
  tadd (sw_finish w) (e_lag e) <= min_start_time g sd (e_to e).
Proof.
  intros He Hw. apply max_default0_ge. apply parent_times_in. exists e, w. split; [|auto].
  apply filter_In. split; [exact He|apply Nat.eqb_refl].
Qed.
Lemma min_start_range g sd n : - TIME_INF <= min_start_time g sd n <= TIME_INF.
Proof.
  inf. unfold min_start_time. destruct (max_default0_in (parent_times sd (edges_to g n))) as [E|E]; [lia|].
  apply parent_times_in in E as (e & w & _ & _ & E). rewrite E. apply set_time_range.
Qed.
Lemma min_start_nil g n : min_start_time g [] n = 0.
Proof.
  unfold min_start_time. replace (parent_times [] (edges_to g n)) with (@nil Z); [reflexivity|].
  induction (edges_to g n); simpl; auto.
Qed.

(** ** Placement of a chain *)

(** Works of a chain placed one after another from [lo] to [hi]. *)
Fixpoint consecutive (team : list worker) (c : nat) (lo : Z) (l : list (nat * swork)) (hi : Z) : Prop :=
  match l with
  | [] => lo = hi
  | (n, w) :: r => lo <= sw_start w <= sw_finish w /\ sw_team w = team /\ sw_contractor w = c /\
                   consecutive team c (sw_finish w) r hi
  end.

Lemma consecutive_le team c : forall l lo hi, consecutive team c lo l hi -> lo <= hi.
Proof. induction l as [|[n w] l IH]; simpl; intros lo hi H; [lia|]. destruct H as (H1 & _ & _ & H2). apply IH in H2. lia. Qed.
Lemma consecutive_in team c : forall l lo hi n w, consecutive team c lo l hi -> In (n, w) l ->
  lo <= sw_start w <= sw_finish w /\ sw_finish w <= hi /\ sw_team w = team /\ sw_contractor w = c.
Proof.
  induction l as [|[m v] l IH]; simpl; intros lo hi n w H Hin; [destruct Hin|].
  destruct H as (H1 & H2 & H3 & H4). assert (H5 := consecutive_le _ _ _ _ _ H4).
  destruct Hin as [[= -> ->]|Hin]; [repeat split; auto; lia|].
  destruct (IH _ _ _ _ H4 Hin) as (A & B & C & D). repeat split; auto; lia.
Qed.
Lemma consecutive_order team c : forall l lo hi l1 n w l2 m v l3, consecutive team c lo l hi ->
  l = l1 ++ (n, w) :: l2 ++ (m, v) :: l3 -> sw_finish w <= sw_start v.
Proof.
  induction l as [|[x y] l IH]; intros lo hi l1 n w l2 m v l3 H E; [destruct l1; discriminate|].
  simpl in H. destruct H as (H1 & _ & _ & H4). destruct l1 as [|z l1]; simpl in E.
  - injection E as E0 E1 E2. subst x y. destruct (consecutive_in _ _ _ _ _ m v H4) as [A _]; [|lia].
    rewrite E2. apply in_or_app. right. left. reflexivity.
  - injection E as E1 E2. eapply IH; eauto.
Qed.

Lemma tadd_ge a b : 0 <= b -> a <= TIME_INF -> a <= tadd a b.
Proof. intros Hb Ha. inf. unfold tadd. destruct (set_time_cases (a + b)) as [[E _]|[[_ E]|[? E]]]; lia. Qed.

Lemma place_ge team c : forall chain times curr sd fin sd',
  Forall (fun x => 0 <= fst x /\ 0 <= snd x) times -> curr <= TIME_INF ->
  place_chain team c curr chain times sd = (fin, sd') -> curr <= fin <= TIME_INF.
Proof.
  induction chain as [|n chain IH]; intros times curr sd fin sd' Ht Hc H; simpl in H; [injection H as <- _; lia|].
  destruct times as [|[lag t] times]; [injection H as <- _; lia|].
  inversion Ht as [|? ? [H1 H2] Ht']; subst. simpl in *.
  assert (A := tadd_ge curr lag H1 Hc). assert (B : tadd curr lag <= TIME_INF) by apply set_time_range.
  assert (C := tadd_ge (tadd curr lag) t H2 B).
  apply IH in H; [lia|exact Ht'|apply set_time_range].
Qed.

Lemma place_shape team c : forall chain times curr sd fin sd',
  length times = length chain ->
  Forall (fun x => 0 <= fst x /\ 0 <= snd x) times -> curr <= TIME_INF ->
  place_chain team c curr chain times sd = (fin, sd') ->
  exists new, sd' = rev new ++ sd /\ map fst new = chain /\ consecutive team c curr new fin.
Proof.
  induction chain as [|n chain IH]; intros times curr sd fin sd' Hl Ht Hc H.
  - destruct times; [|discriminate]. simpl in H. injection H as <- <-. exists []. simpl. repeat split; lia.
  - destruct times as [|[lag t] times]; [discriminate|]. simpl in H.
    inversion Ht as [|? ? [H1 H2] Ht']; subst. simpl in H1, H2.
    assert (R1 : tadd curr lag <= TIME_INF) by apply set_time_range.
    assert (R2 : tadd (tadd curr lag) t <= TIME_INF) by apply set_time_range.
    assert (G1 := tadd_ge curr lag H1 Hc). assert (G2 := tadd_ge (tadd curr lag) t H2 R1).
    destruct (IH times _ _ fin sd' ltac:(simpl in Hl; lia) Ht' R2 H) as (new & A1 & A2 & A3).
    eexists ((n, SW (tadd curr lag) (tadd (tadd curr lag) t) team c) :: new). split.
    { rewrite A1. simpl. rewrite <- app_assoc. reflexivity. }
    split; [simpl; congruence|]. simpl. repeat split; auto; lia.
Qed.

Lemma place_chain_spec team c : forall chain times curr sd fin sd',
  length times = length chain ->
  Forall (fun x => 0 <= fst x /\ 0 <= snd x) times -> 0 <= curr <= TIME_INF ->
  place_chain team c curr chain times sd = (fin, sd') -> fin < TIME_INF ->
  exists new, sd' = rev new ++ sd /\ map fst new = chain /\ consecutive team c curr new fin /\
    fin = curr + zsum (map fst times) + zsum (map snd times) /\
    map (fun x => sw_finish (snd x) - sw_start (snd x)) new = map snd times.
Proof.
  induction chain as [|n chain IH]; intros times curr sd fin sd' Hl Ht Hc H Hfin.
  - destruct times; [|discriminate]. simpl in H. injection H as <- <-. exists []. simpl. repeat split; lia.
  - destruct times as [|[lag t] times]; [discriminate|]. simpl in H.
    inversion Ht as [|? ? [H1 H2] Ht']; subst. simpl in H1, H2.
    assert (Hge := place_ge team c _ _ (tadd (tadd curr lag) t) _ _ _ Ht' (proj2 (set_time_range (tadd curr lag + t))) H).
    assert (E2 : tadd (tadd curr lag) t = tadd curr lag + t).
    { apply tadd_finite; [|exact H2|lia]. assert (HH := tadd_ge curr lag H1 ltac:(lia)). lia. }
    assert (E1 : tadd curr lag = curr + lag) by (apply tadd_finite; lia).
    rewrite E2, E1 in *.
    destruct (IH times (curr + lag + t) ((n, SW (curr + lag) (curr + lag + t) team c) :: sd) fin sd')
      as (new & A1 & A2 & A3 & A4 & A5); auto; try lia.
    exists ((n, SW (curr + lag) (curr + lag + t) team c) :: new). split.
    { rewrite A1. simpl. rewrite <- app_assoc. reflexivity. }
    split; [simpl; congruence|]. split; [simpl; repeat split; auto; lia|]. split.
    + unfold zsum in *. cbn [map fst snd fold_right]. rewrite A4. ring.
    + simpl. rewrite A5. f_equal. lia.
Qed.

(** ** Execution times of a chain *)

Definition node_time (g : graph) (est : nat -> list worker -> Z) (team : list worker) (n : nat) : Z :=
  match reqs_of g n with [] => 0 | _ => est n team end.

(** Finish of the chain started at [cur]: each node waits for its own bound. *)
Fixpoint chain_finish (bound t : nat -> Z) (cur : Z) (chain : list nat) : Z :=
  match chain with
  | [] => cur
  | n :: r => chain_finish bound t (Z.max cur (bound n) + t n) r
  end.
Lemma chain_finish_ge bound t : (forall n, 0 <= t n) -> forall chain cur, cur <= chain_finish bound t cur chain.
Proof. intros Ht. induction chain as [|n r IH]; intros cur; simpl; [lia|]. specialize (IH (Z.max cur (bound n) + t n)). specialize (Ht n). lia. Qed.
Lemma chain_finish_mono bound t : forall chain a b, a <= b -> chain_finish bound t a chain <= chain_finish bound t b chain.
Proof. induction chain as [|n r IH]; intros a b H; simpl; [lia|]. apply IH. lia. Qed.
Lemma chain_finish_lip bound t : forall chain a d, 0 <= d -> chain_finish bound t (a + d) chain <= chain_finish bound t a chain + d.
Proof.
  induction chain as [|n r IH]; intros a d Hd; simpl; [lia|].
  eapply Z.le_trans; [|apply IH; exact Hd]. apply chain_finish_mono. lia.
Qed.
Lemma chain_finish_ext bound bound' t : forall chain cur, (forall n, In n chain -> Z.max cur (bound n) = Z.max cur (bound' n)) ->
  (forall n, 0 <= t n) -> chain_finish bound t cur chain = chain_finish bound' t cur chain.
Proof.
  induction chain as [|n r IH]; intros cur H Ht; simpl; [reflexivity|].
  rewrite (H n (or_introl eq_refl)). apply IH; [|exact Ht]. intros m Hm. specialize (H m (or_intror Hm)). specialize (Ht n). lia.
Qed.

Lemma node_time_ok g est team : estimator_ok est -> forall n, 0 <= node_time g est team n <= TIME_INF.
Proof. intros Hest n. unfold node_time. destruct (reqs_of g n); [inf; lia|apply Hest]. Qed.

Section ChainExec.
  Variables (g : graph) (est : nat -> list worker -> Z) (team : list worker).
  Hypothesis Hest : estimator_ok est.
  Variables (bound : nat -> Z) (base : Z).
  Hypothesis Hbound : forall n, - TIME_INF <= bound n <= TIME_INF.
  Hypothesis Hbase : 0 <= base <= TIME_INF.

  Lemma chain_exec_shape : forall chain exec e times, 0 <= exec <= TIME_INF ->
    chain_exec g est bound base team exec chain = (e, times) ->
    length times = length chain /\ Forall (fun x => 0 <= fst x /\ 0 <= snd x) times /\ exec <= e <= TIME_INF /\
    map snd times = map (node_time g est team) chain.
  Proof.
    clear Hbound Hbase.
    induction chain as [|n chain IH]; intros exec e times He H; simpl in H.
    - injection H as <- <-. simpl. repeat split; auto; lia.
    - set (t := match reqs_of g n with [] => 0 | _ => est n team end) in *.
      assert (Ht : t = node_time g est team n) by reflexivity.
      set (lr := tsub (tsub (bound n) base) exec) in *.
      set (lag := if 0 <? lr then lr else 0) in *.
      assert (Hlag : 0 <= lag) by (unfold lag; destruct (Z.ltb_spec 0 lr); lia).
      assert (Ht0 := node_time_ok g est team Hest n). rewrite <- Ht in Ht0.
      destruct (chain_exec g est bound base team (tadd exec (tadd lag t)) chain) as [e' l] eqn:E.
      injection H as <- <-.
      assert (Hl1 : 0 <= tadd lag t).
      { unfold tadd. destruct (set_time_cases (lag + t)) as [[E1 _]|[[_ E1]|[? E1]]]; inf; lia. }
      assert (Hx : exec <= tadd exec (tadd lag t) <= TIME_INF).
      { split; [apply tadd_ge; lia|apply set_time_range]. }
      destruct (IH (tadd exec (tadd lag t)) e' l ltac:(lia) E) as (A1 & A2 & A3 & A4).
      simpl. rewrite A1, A4, <- Ht. split; [reflexivity|]. split; [constructor; [simpl; lia|exact A2]|].
      split; [lia|reflexivity].
  Qed.

  (** The works of a placed chain do not start before their bounds, saturation included. *)
  Lemma chain_place_bound : forall chain exec e times c curr sd fin sd', 0 <= exec <= TIME_INF ->
    chain_exec g est bound base team exec chain = (e, times) ->
    curr = Z.min TIME_INF (base + exec) ->
    place_chain team c curr chain times sd = (fin, sd') ->
    fin = Z.min TIME_INF (base + e) /\
    exists new, sd' = rev new ++ sd /\ map fst new = chain /\
      forall n w, In (n, w) new -> bound n <= sw_start w.
  Proof.
    induction chain as [|n chain IH]; intros exec e times c curr sd fin sd' He H Hcurr Hp; simpl in H.
    - injection H as <- <-. simpl in Hp. injection Hp as <- <-.
      split; [exact Hcurr|]. exists []. simpl. split; [reflexivity|]. split; [reflexivity|]. intros n w [].
    - set (t := match reqs_of g n with [] => 0 | _ => est n team end) in *.
      assert (Ht : t = node_time g est team n) by reflexivity.
      set (lr := tsub (tsub (bound n) base) exec) in *.
      set (lag := if 0 <? lr then lr else 0) in *.
      assert (Ht0 := node_time_ok g est team Hest n). rewrite <- Ht in Ht0.
      assert (Hlag : lag = Z.max 0 (bound n - base - exec)).
      { unfold lag, lr, tsub. specialize (Hbound n).
        destruct (set_time_cases (bound n - base)) as [[E1 R1]|[[R1 E1]|[R1 E1]]]; rewrite E1.
        - destruct (set_time_cases (bound n - base - exec)) as [[E2 R2]|[[R2 E2]|[R2 E2]]]; rewrite E2;
            match goal with |- context [0 <? ?x] => destruct (Z.ltb_spec 0 x) end; inf; lia.
        - lia.
        - destruct (set_time_cases (- TIME_INF - exec)) as [[E2 R2]|[[R2 E2]|[R2 E2]]]; rewrite E2;
            match goal with |- context [0 <? ?x] => destruct (Z.ltb_spec 0 x) end; inf; lia. }
      destruct (chain_exec g est bound base team (tadd exec (tadd lag t)) chain) as [e' l] eqn:E.
      injection H as <- <-. simpl in Hp.
      assert (Hb := Hbound n). inf.
      assert (Elt : tadd lag t = Z.min TIME_INF (lag + t)) by (apply tadd_min; lia).
      assert (Eex : tadd exec (tadd lag t) = Z.min TIME_INF (exec + lag + t)) by (rewrite tadd_min; lia).
      assert (Es : tadd curr lag = Z.min TIME_INF (base + exec + lag)) by (rewrite tadd_min; lia).
      assert (Ef : tadd (tadd curr lag) t = Z.min TIME_INF (base + exec + lag + t)) by (rewrite tadd_min; lia).
      destruct (IH (tadd exec (tadd lag t)) e' l c (tadd (tadd curr lag) t) _ _ _ ltac:(lia) E ltac:(lia) Hp)
        as [C1 (new & C2 & C3 & C4)].
      split; [exact C1|]. exists ((n, SW (tadd curr lag) (tadd (tadd curr lag) t) team c) :: new).
      split; [rewrite C2; simpl; rewrite <- app_assoc; reflexivity|]. split; [simpl; congruence|].
      intros m w [[= <- <-]|Hin]; [|apply (C4 _ _ Hin)]. simpl. lia.
  Qed.

  (** If the whole stays finite, the computed times are exact. *)
  Lemma chain_exec_spec : forall chain exec e times, 0 <= exec <= TIME_INF -> 
    chain_exec g est bound base team exec chain = (e, times) -> base + e < TIME_INF ->
    base + e = chain_finish bound (node_time g est team) (base + exec) chain /\
    (forall c curr sd fin sd', curr = base + exec ->
       place_chain team c curr chain times sd = (fin, sd') ->
       fin = base + e /\
       exists new, sd' = rev new ++ sd /\ map fst new = chain /\
         (forall n w, In (n, w) new -> bound n <= sw_start w /\ sw_finish w = sw_start w + node_time g est team n)).
  Proof.
    induction chain as [|n chain IH]; intros exec e times He H Hfin; simpl in H.
    - injection H as <- <-. split; [reflexivity|]. intros c curr sd fin sd' -> H. simpl in H. injection H as <- <-.
      split; [reflexivity|]. exists []. simpl. repeat split; auto; try (intros _ w []).  contradiction. contradiction.
    - set (t := match reqs_of g n with [] => 0 | _ => est n team end) in *.
      assert (Ht : t = node_time g est team n) by reflexivity.
      set (lr := tsub (tsub (bound n) base) exec) in *.
      set (lag := if 0 <? lr then lr else 0) in *.
      assert (Ht0 := node_time_ok g est team Hest n). rewrite <- Ht in Ht0.
      assert (Hlag : lag = Z.max 0 (bound n - base - exec)).
      { unfold lag, lr, tsub. specialize (Hbound n).
        destruct (set_time_cases (bound n - base)) as [[E1 R1]|[[R1 E1]|[R1 E1]]]; rewrite E1.
        - destruct (set_time_cases (bound n - base - exec)) as [[E2 R2]|[[R2 E2]|[R2 E2]]]; rewrite E2;
            match goal with |- context [0 <? ?x] => destruct (Z.ltb_spec 0 x) end; inf; lia.
        - lia.
        - destruct (set_time_cases (- TIME_INF - exec)) as [[E2 R2]|[[R2 E2]|[R2 E2]]]; rewrite E2;
            match goal with |- context [0 <? ?x] => destruct (Z.ltb_spec 0 x) end; inf; lia. }
      destruct (chain_exec g est bound base team (tadd exec (tadd lag t)) chain) as [e' l] eqn:E.
      injection H as <- <-.
      assert (Hl1 : 0 <= tadd lag t).
      { unfold tadd. destruct (set_time_cases (lag + t)) as [[E1 _]|[[_ E1]|[? E1]]]; inf; lia. }
      assert (Hx : exec <= tadd exec (tadd lag t) <= TIME_INF).
      { split; [apply tadd_ge; lia|apply set_time_range]. }
      destruct (chain_exec_shape chain (tadd exec (tadd lag t)) e' l ltac:(lia) E) as (_ & _ & A3 & _).
      assert (Elt : tadd lag t = lag + t).
      { apply tadd_finite; try lia. assert (HH := tadd_ge (tadd lag t) exec ltac:(lia) ltac:(apply set_time_range)).
        unfold tadd in HH, A3 |- *. rewrite (Z.add_comm (set_time (lag + t)) exec) in HH. lia. }
      assert (Eex : tadd exec (tadd lag t) = exec + lag + t).
      { rewrite Elt in *. rewrite tadd_finite; lia. }
      rewrite Eex in *.
      destruct (IH (exec + lag + t) e' l ltac:(lia) E Hfin) as [B1 B2].
      split.
      { rewrite B1. cbn [chain_finish]. rewrite <- Ht. f_equal. lia. }
      intros c curr sd fin sd' -> Hp. simpl in Hp.
      assert (Es : tadd (base + exec) lag = base + exec + lag) by (unfold tadd; apply set_time_id; inf; lia).
      assert (Ef : tadd (base + exec + lag) t = base + exec + lag + t) by (unfold tadd; apply set_time_id; inf; lia).
      rewrite Es, Ef in Hp.
      destruct (B2 c (base + exec + lag + t) _ _ _ ltac:(lia) Hp) as [C1 (new & C2 & C3 & C4)].
      split; [exact C1|]. exists ((n, SW (base + exec + lag) (base + exec + lag + t) team c) :: new).
      split; [rewrite C2; simpl; rewrite <- app_assoc; reflexivity|]. split; [simpl; congruence|].
      intros m w [[= <- <-]|Hin]; [|apply C4; exact Hin]. simpl. rewrite <- Ht. split; lia.
  Qed.
End ChainExec.
