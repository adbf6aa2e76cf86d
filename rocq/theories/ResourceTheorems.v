(** C32, C33: the resource optimizers; C51 for the schedulers with their own optimizers. *)
From Coq Require Import ZArith List Bool Lia Arith Permutation ZifyBool ZifyNat.
From Verif Require Import TimeModel MomentumModel JITModel MomentumSpec GraphModel ScheduleModel ScheduleSpec ContractorProofs TeamProofs
  ContractorTheorems ScheduleInv ScheduleTheorems JitScheduleTheorems Digraph HeadModel HeadProofs HeadTheorems PriorityModel
  ValidationModel ValidationTheorems PipelineModel PipelineTheorems ResourceModel.
Import ListNotations.
Local Open Scope Z_scope.

(** ** C32: integer dichotomy *)
Lemma shiftr1 x : Z.shiftr x 1 = x / 2.
Proof. rewrite Z.shiftr_div_pow2 by lia. reflexivity. Qed.

Lemma dichotomy_loop_range func : forall rounds down up r, down <= up ->
  dichotomy_loop rounds func down up = Some r -> down <= r <= up /\ (down < up -> r < up).
Proof.
  induction rounds as [|k IH]; intros down up r Hle H; [discriminate|]. cbn [dichotomy_loop] in H. rewrite !shiftr1 in H.
  assert (E1 : (down + up + 1) / 2 = (down + up - 1) / 2 + 1).
  { replace (down + up + 1) with (down + up - 1 + 1 * 2) by lia. apply Z.div_add. lia. }
  assert (E2 := Z.div_mod (down + up - 1) 2 ltac:(lia)). assert (E3 := Z.mod_pos_bound (down + up - 1) 2 ltac:(lia)).
  assert (E4 := Z.div_mod (up + down) 2 ltac:(lia)). assert (E5 := Z.mod_pos_bound (up + down) 2 ltac:(lia)).
  destruct (Z.ltb_spec 2 (up - down)).
  - destruct (Z.eqb_spec ((down + up - 1) / 2) ((down + up + 1) / 2)); [lia|].
    destruct (func _) as [f1|]; [|discriminate]. destruct (func _) as [f2|]; [|discriminate].
    destruct (f1 <? f2); apply IH in H; lia.
  - injection H as <-. lia.
Qed.
Lemma dichotomy_loop_total func : forall rounds down up, down <= up -> (Z.to_nat (up - down) < rounds)%nat ->
  (forall x, down <= x <= up -> func x <> None) -> dichotomy_loop rounds func down up <> None.
Proof.
  induction rounds as [|k IH]; intros down up Hle Hk Hf; [lia|]. cbn [dichotomy_loop]. rewrite !shiftr1.
  assert (E1 : (down + up + 1) / 2 = (down + up - 1) / 2 + 1).
  { replace (down + up + 1) with (down + up - 1 + 1 * 2) by lia. apply Z.div_add. lia. }
  assert (E2 := Z.div_mod (down + up - 1) 2 ltac:(lia)). assert (E3 := Z.mod_pos_bound (down + up - 1) 2 ltac:(lia)).
  destruct (Z.ltb_spec 2 (up - down)); [|discriminate].
  destruct (Z.eqb_spec ((down + up - 1) / 2) ((down + up + 1) / 2)); [discriminate|].
  destruct (func ((down + up - 1) / 2)) as [f1|] eqn:F1; [|exfalso; revert F1; apply Hf; lia].
  destruct (func ((down + up + 1) / 2)) as [f2|] eqn:F2; [|exfalso; revert F2; apply Hf; lia].
  destruct (f1 <? f2); apply IH; try lia; intros; apply Hf; lia.
Qed.
Lemma dichotomy_some down up func r : down <= up -> dichotomy_int down up func = Some r -> down <= r <= up.
Proof. intros Hle H. apply dichotomy_loop_range in H; [tauto|exact Hle]. Qed.

(** The search ends, and its answer is in the range, for every objective. *)
Theorem dichotomy_in_range :
  forall down up func, down <= up -> (forall x, down <= x <= up -> func x <> None) ->
    exists r, dichotomy_int down up func = Some r /\ down <= r <= up.
Proof.
  intros down up func Hle Hf. destruct (dichotomy_int down up func) as [r|] eqn:E.
  - exists r. split; [reflexivity|]. eapply dichotomy_some; eauto.
  - exfalso. revert E. apply dichotomy_loop_total; [exact Hle|lia|exact Hf].
Qed.
Print Assumptions dichotomy_in_range.

(** [f] strictly falls before [m] and strictly grows after it, within the range. *)
Definition strictly_unimodal (f : Z -> Z) (down up m : Z) : Prop :=
  (forall x y, down <= x -> x < y -> y <= m -> f y < f x) /\ (forall x y, m <= x -> x < y -> y <= up -> f x < f y).
Lemma dichotomy_loop_near f m : forall rounds down up r, down <= m <= up -> strictly_unimodal f down up m ->
  dichotomy_loop rounds (fun x => Some (f x)) down up = Some r -> Z.abs (r - m) <= 1.
Proof.
  induction rounds as [|k IH]; intros down up r Hm Hu H; [discriminate|]. cbn [dichotomy_loop] in H. rewrite !shiftr1 in H.
  assert (E1 : (down + up + 1) / 2 = (down + up - 1) / 2 + 1).
  { replace (down + up + 1) with (down + up - 1 + 1 * 2) by lia. apply Z.div_add. lia. }
  assert (E2 := Z.div_mod (down + up - 1) 2 ltac:(lia)). assert (E3 := Z.mod_pos_bound (down + up - 1) 2 ltac:(lia)).
  assert (E4 := Z.div_mod (up + down) 2 ltac:(lia)). assert (E5 := Z.mod_pos_bound (up + down) 2 ltac:(lia)).
  destruct Hu as [U1 U2]. destruct (Z.ltb_spec 2 (up - down)).
  - destruct (Z.eqb_spec ((down + up - 1) / 2) ((down + up + 1) / 2)); [lia|]. rewrite E1 in H.
    set (x := (down + up - 1) / 2) in *. destruct (Z.ltb_spec (f x) (f (x + 1))) as [Hlt|Hge].
    + assert (m <= x). { destruct (Z_le_gt_dec m x); [assumption|]. assert (f (x + 1) < f x) by (apply U1; lia). lia. }
      apply IH in H; [exact H|lia|]. split; intros; [apply U1|apply U2]; lia.
    + assert (x < m). { destruct (Z_le_gt_dec m x); [|lia]. assert (f x < f (x + 1)) by (apply U2; lia). lia. }
      apply IH in H; [exact H|lia|]. split; intros; [apply U1|apply U2]; lia.
  - injection H as <-. lia.
Qed.
(** For a strictly unimodal objective the answer is the minimiser or next to it. *)
Theorem dichotomy_near_minimum :
  forall down up f m, down <= m <= up -> strictly_unimodal f down up m ->
    exists r, dichotomy_int down up (fun x => Some (f x)) = Some r /\ down <= r <= up /\ Z.abs (r - m) <= 1.
Proof.
  intros down up f m Hm Hu. destruct (dichotomy_in_range down up (fun x => Some (f x)) ltac:(lia) ltac:(discriminate)) as (r & E & R).
  exists r. split; [exact E|]. split; [exact R|]. eapply dichotomy_loop_near; eauto.
Qed.
Print Assumptions dichotomy_near_minimum.
(** For an objective that never grows the answer is at most one below the upper border. *)
Theorem dichotomy_of_falling :
  forall down up f, down <= up -> (forall x y, down <= x -> x <= y -> y <= up -> f y <= f x) ->
    exists r, dichotomy_int down up (fun x => Some (f x)) = Some r /\ up - 1 <= r <= up.
Proof.
  intros down up f Hle Hf. destruct (dichotomy_in_range down up (fun x => Some (f x)) ltac:(lia) ltac:(discriminate)) as (r & E & R).
  exists r. split; [exact E|]. split; [|lia]. unfold dichotomy_int in E. revert E. clear R.
  generalize (S (Z.to_nat (up - down))) as rounds. intros rounds. revert down Hle Hf.
  induction rounds as [|k IH]; intros down Hle Hf H; [discriminate|]. cbn [dichotomy_loop] in H. rewrite !shiftr1 in H.
  assert (E1 : (down + up + 1) / 2 = (down + up - 1) / 2 + 1).
  { replace (down + up + 1) with (down + up - 1 + 1 * 2) by lia. apply Z.div_add. lia. }
  assert (E2 := Z.div_mod (down + up - 1) 2 ltac:(lia)). assert (E3 := Z.mod_pos_bound (down + up - 1) 2 ltac:(lia)).
  assert (E4 := Z.div_mod (up + down) 2 ltac:(lia)). assert (E5 := Z.mod_pos_bound (up + down) 2 ltac:(lia)).
  destruct (Z.ltb_spec 2 (up - down)).
  - destruct (Z.eqb_spec ((down + up - 1) / 2) ((down + up + 1) / 2)); [lia|].
    destruct (Z.ltb_spec (f ((down + up - 1) / 2)) (f ((down + up + 1) / 2))).
    + assert (f ((down + up + 1) / 2) <= f ((down + up - 1) / 2)) by (apply Hf; lia). lia.
    + apply IH in H; [exact H|lia|]. intros. apply Hf; lia.
  - injection H as <-. lia.
Qed.
Print Assumptions dichotomy_of_falling.
(** Finding: the upper border is never answered, unless it is the only value; so with an
    objective that falls up to the upper border the minimum is missed. *)
Theorem dichotomy_never_upper_border :
  forall down up func r, down < up -> dichotomy_int down up func = Some r -> r < up.
Proof. intros down up func r Hlt H. apply dichotomy_loop_range in H; [|lia]. tauto. Qed.
Print Assumptions dichotomy_never_upper_border.
Theorem dichotomy_misses_minimum :
  exists f, strictly_unimodal f 1 10 10 /\ dichotomy_int 1 10 (fun x => Some (f x)) = Some 9.
Proof. exists (fun x => - x). split; [split; intros; lia|vm_compute; reflexivity]. Qed.
Print Assumptions dichotomy_misses_minimum.
Example dichotomy_ex :
  strictly_unimodal (fun x => (x - 13) * (x - 13)) 1 40 13 /\
  dichotomy_int 1 40 (fun x => Some ((x - 13) * (x - 13))) = Some 13.
Proof. split; [split; intros; nia|vm_compute; reflexivity]. Qed.

(** ** C33: counts within the borders *)
Inductive between : list Z -> list Z -> list Z -> Prop :=
  | between_nil : between [] [] []
  | between_cons d u x ds us xs : d <= x <= u -> between ds us xs -> between (d :: ds) (u :: us) (x :: xs).
Lemma between_borders bs xs : between (map bd_min bs) (map bd_max bs) xs <-> within_borders bs xs.
Proof.
  unfold within_borders. split.
  - revert xs. induction bs as [|b bs IH]; intros xs H; inversion H; subst; constructor; auto.
  - induction 1; simpl; constructor; auto.
Qed.
Lemma between_trans d u m1 m2 x : between d u m1 -> between d u m2 -> between m1 m2 x -> between d u x.
Proof.
  intros H1. revert m2 x. induction H1 as [|? ? ? ? ? ? ? H1 IH]; intros m2 v H2 H3; inversion H2; subst; inversion H3; subst; constructor; [lia|eauto].
Qed.

Lemma between_app d1 u1 x1 d2 u2 x2 : between d1 u1 x1 -> between d2 u2 x2 -> between (d1 ++ d2) (u1 ++ u2) (x1 ++ x2).
Proof. induction 1; intros H2; simpl; [exact H2|constructor; auto]. Qed.
Lemma between_low d u x : between d u x -> between d u d.
Proof. induction 1; constructor; [lia|assumption]. Qed.
Lemma between_high d u x : between d u x -> between d u u.
Proof. induction 1; constructor; [lia|assumption]. Qed.

Definition in_range (method : Z -> Z -> (Z -> option Z) -> option Z) : Prop :=
  forall d u f r, d <= u -> method d u f = Some r -> d <= r <= u.
Definition answers (method : Z -> Z -> (Z -> option Z) -> option Z) : Prop :=
  forall d u f, d <= u -> (forall x, d <= x <= u -> f x <> None) -> method d u f <> None.
Lemma dichotomy_ok : in_range dichotomy_int /\ answers dichotomy_int.
Proof.
  split.
  - intros d u f r. apply dichotomy_some.
  - intros d u f Hle Hf. destruct (dichotomy_in_range d u f Hle Hf) as (r & -> & _). discriminate.
Qed.

Lemma descent_between method fitness flags : in_range method -> forall ds us dd uu done res,
  between dd uu done -> between ds us ds ->
  descent_loop method fitness flags done ds us = Some res -> between (dd ++ ds) (uu ++ us) res.
Proof.
  intros Hm. induction ds as [|d ds IH]; intros us dd uu done res Hd Hb H; inversion Hb as [|? u ? ? us' ? Hdu Hb']; subst; cbn [descent_loop] in H.
  - injection H as <-. rewrite !app_nil_r. exact Hd.
  - destruct (np_truth flags) as [tr|]; [|discriminate].
    replace (dd ++ d :: ds) with ((dd ++ [d]) ++ ds) by (rewrite <- app_assoc; reflexivity).
    replace (uu ++ u :: us') with ((uu ++ [u]) ++ us') by (rewrite <- app_assoc; reflexivity).
    destruct (tr && negb _).
    + eapply IH; [|exact Hb'|exact H]. apply between_app; [exact Hd|]. constructor; [lia|constructor].
    + destruct (method d u _) as [x|] eqn:Em; [|discriminate]. apply Hm in Em; [|lia].
      eapply IH; [|exact Hb'|exact H]. apply between_app; [exact Hd|]. constructor; [lia|constructor].
Qed.
Lemma descent_total method fitness : answers method -> in_range method -> forall ds us dd uu done,
  between dd uu done -> between ds us ds ->
  (forall v, between (dd ++ ds) (uu ++ us) v -> fitness v <> None) ->
  descent_loop method fitness None done ds us <> None.
Proof.
  intros Ha Hm. induction ds as [|d ds IH]; intros us dd uu done Hd Hb Hf; inversion Hb as [|? u ? ? us' ? Hdu Hb']; subst; cbn [descent_loop]; [discriminate|].
  cbn [np_truth]. cbv zeta. simpl andb.
  replace (dd ++ d :: ds) with ((dd ++ [d]) ++ ds) in Hf by (rewrite <- app_assoc; reflexivity).
  replace (uu ++ u :: us') with ((uu ++ [u]) ++ us') in Hf by (rewrite <- app_assoc; reflexivity).
  destruct (method d u _) as [x|] eqn:Em.
  - apply Hm in Em; [|lia]. eapply IH; [|exact Hb'|exact Hf]. apply between_app; [exact Hd|]. constructor; [lia|constructor].
  - exfalso. revert Em. apply Ha; [lia|]. intros x Hx. apply Hf.
    replace (done ++ x :: ds) with ((done ++ [x]) ++ ds) by (rewrite <- app_assoc; reflexivity).
    apply between_app; [|exact Hb']. apply between_app; [exact Hd|]. constructor; [lia|constructor].
Qed.
Lemma descent_optimizer_between method fitness flags d u res : in_range method -> between d u d ->
  descent_optimizer method fitness flags d u = Some res -> between d u res.
Proof.
  intros Hm Hb. unfold descent_optimizer, coordinate_descent. destruct (descent_loop _ _ _ _ _ _) as [l|] eqn:E; [|discriminate].
  destruct (np_truth flags); [|discriminate]. intros [= <-].
  apply (descent_between _ _ _ Hm d u [] [] [] l between_nil Hb E).
Qed.
Lemma descent_optimizer_total method fitness d u : answers method -> in_range method -> between d u d ->
  (forall v, between d u v -> fitness v <> None) -> descent_optimizer method fitness None d u <> None.
Proof.
  intros Ha Hm Hb Hf. unfold descent_optimizer, coordinate_descent.
  destruct (descent_loop _ _ _ _ _ _) eqn:E; [discriminate|]. exfalso. revert E.
  apply (descent_total _ _ Ha Hm d u [] [] [] between_nil Hb Hf).
Qed.

Lemma halfway_between d u : between d u d -> between d u (halfway u d).
Proof.
  induction d as [|x d IH] in u |- *; intros H; inversion H; subst; simpl; constructor; [|auto].
  match goal with |- _ <= (?a + ?b) / 2 <= _ => assert (E4 := Z.div_mod (a + b) 2 ltac:(lia)); assert (E5 := Z.mod_pos_bound (a + b) 2 ltac:(lia)) end. lia.
Qed.
Lemma width_nonneg d u : between d u d -> 0 <= width d u.
Proof. induction d as [|x d IH] in u |- *; intros H; inversion H; subst; simpl; [lia|]. assert (0 <= width d us) by auto. lia. Qed.
Lemma width_halfway d u : between d u d -> width d (halfway u d) <= width d u /\ (any_greater u d = true -> width d (halfway u d) < width d u).
Proof.
  induction d as [|x d IH] in u |- *; intros H; inversion H as [|? y ? ? us ? Hxy Hb]; subst; simpl; [split; [lia|discriminate]|].
  destruct (IH us Hb) as [I1 I2].
  assert (E4 := Z.div_mod (y + x) 2 ltac:(lia)). assert (E5 := Z.mod_pos_bound (y + x) 2 ltac:(lia)). split; [lia|].
  intros Ho. apply orb_true_iff in Ho as [Ho|Ho]; [|apply I2 in Ho; lia]. apply Z.ltb_lt in Ho. lia.
Qed.
Lemma any_greater_refl d : any_greater d d = false.
Proof. induction d; simpl; [reflexivity|]. rewrite Z.ltb_irrefl. exact IHd. Qed.

Lemma between_down d u m : between d u m -> between m u m.
Proof. induction 1; constructor; [lia|assumption]. Qed.
Lemma between_up d u m : between d u m -> between d m d.
Proof. induction 1; constructor; [lia|assumption]. Qed.
Lemma diagonal_between fitness : forall rounds D U down up mid lf rf mid' up',
  between D U down -> between D U up -> between down up mid ->
  diagonal_loop rounds fitness down up mid lf rf = Some (mid', up') ->
  between D U mid' /\ between D U up' /\ between mid' up' mid'.
Proof.
  induction rounds as [|r IH]; intros D U down up mid lf rf mid' up' Hd Hu Hm H; [discriminate|]. cbn [diagonal_loop] in H.
  assert (Hdu : between down up down) by (eapply between_low; exact Hm).
  assert (Hh := halfway_between down up Hdu). destruct (any_greater mid down).
  - destruct (fitness (halfway up down)) as [nx|]; [|discriminate].
    assert (Hh' : between D U (halfway up down)) by (eapply between_trans; [exact Hd|exact Hu|exact Hh]).
    destruct (nx <? rf); [|destruct (lf <? nx)].
    + eapply IH in H; [exact H|exact Hh'|exact Hu|]. eapply between_down. exact Hh.
    + eapply IH in H; [exact H|exact Hd|exact Hh'|]. eapply between_high, between_up. exact Hh.
    + injection H as <- <-. split; [exact Hh'|]. split; [exact Hu|]. eapply between_down. exact Hh.
  - injection H as <- <-. split; [eapply between_trans; [exact Hd|exact Hu|exact Hm]|]. split; [exact Hu|]. eapply between_down. exact Hm.
Qed.
Lemma diagonal_total fitness : forall rounds D U down up mid lf rf,
  between D U down -> between D U up -> between down up mid ->
  (mid = up /\ (Z.to_nat (width down up) < rounds)%nat \/ mid = down /\ (0 < rounds)%nat) ->
  (forall v, between D U v -> fitness v <> None) ->
  diagonal_loop rounds fitness down up mid lf rf <> None.
Proof.
  induction rounds as [|r IH]; intros D U down up mid lf rf Hd Hu Hm Hr Hf; [lia|]. cbn [diagonal_loop].
  assert (Hdu : between down up down) by (eapply between_low; exact Hm).
  assert (Hh := halfway_between down up Hdu).
  destruct (any_greater mid down) eqn:Ea; [|discriminate].
  destruct Hr as [[-> Hr]|[-> _]]; [|rewrite any_greater_refl in Ea; discriminate].
  assert (Hh' : between D U (halfway up down)) by (eapply between_trans; [exact Hd|exact Hu|exact Hh]).
  destruct (width_halfway down up Hdu) as [_ W]. specialize (W Ea).
  assert (W0 := width_nonneg _ _ (between_up _ _ _ Hh)).
  destruct (fitness (halfway up down)) as [nx|] eqn:En; [|exfalso; revert En; apply Hf; exact Hh'].
  destruct (nx <? rf); [|destruct (lf <? nx); [|discriminate]].
  - eapply IH; [exact Hh'|exact Hu|eapply between_down; exact Hh|right; split; [reflexivity|lia]|exact Hf].
  - eapply IH; [exact Hd|exact Hh'|eapply between_high, between_up; exact Hh|left; split; [reflexivity|lia]|exact Hf].
Qed.

Definition ordered (bs : list border) : Prop := Forall (fun b => 0 <= bd_min b <= bd_max b) bs.
Lemma ordered_between bs : ordered bs -> between (map bd_min bs) (map bd_max bs) (map bd_min bs).
Proof. induction 1; simpl; constructor; [lia|assumption]. Qed.

(** Whatever the objective and the flags: the counts answered are within the borders. *)
Theorem full_scan_within_borders :
  forall fitness bs flags counts res, ordered bs ->
    full_scan fitness bs flags counts = Some res -> within_borders bs res.
Proof.
  intros fitness bs flags counts res Hb H. apply between_borders. apply ordered_between in Hb. unfold full_scan in H.
  destruct (fitness _) as [rf|]; [|discriminate]. destruct (fitness _) as [lf|]; [|discriminate].
  destruct (diagonal_loop _ _ _ _ _ _ _) as [[mid up']|] eqn:Ed; [|discriminate].
  eapply diagonal_between in Ed as (D1 & D2 & D3); [|eapply between_low; exact Hb|eapply between_high; exact Hb|eapply between_high; exact Hb].
  eapply between_trans; [exact D1|exact D2|]. eapply descent_optimizer_between; [apply dichotomy_ok|exact D3|exact H].
Qed.
Print Assumptions full_scan_within_borders.
Theorem coordinate_descent_within_borders :
  forall method fitness bs flags counts res, in_range method -> ordered bs ->
    coordinate_descent_optimizer method fitness bs flags counts = Some res -> within_borders bs res.
Proof.
  intros method fitness bs flags counts res Hm Hb H. apply between_borders. apply ordered_between in Hb.
  eapply descent_optimizer_between; [exact Hm|exact Hb|exact H].
Qed.
Print Assumptions coordinate_descent_within_borders.
Theorem average_within_borders :
  forall bs flags counts res, ordered bs -> average_req bs flags counts = Some res -> within_borders bs res.
Proof.
  intros bs flags counts res Hb H. unfold average_req in H. destruct (np_truth flags) as [tr|]; [|discriminate]. injection H as <-.
  induction Hb as [|b bs Hb _ IH]; simpl; constructor; [|exact IH]. rewrite Z.quot_div_nonneg by lia.
  assert (E4 := Z.div_mod (bd_max b - bd_min b) 2 ltac:(lia)). assert (E5 := Z.mod_pos_bound (bd_max b - bd_min b) 2 ltac:(lia)). lia.
Qed.
Print Assumptions average_within_borders.
(** They answer whenever the objective does within the borders and no positions are
    excluded. *)
Theorem optimizers_answer :
  forall fitness bs counts, ordered bs -> (forall v, within_borders bs v -> fitness v <> None) ->
    full_scan fitness bs None counts <> None /\
    coordinate_descent_optimizer dichotomy_int fitness bs None counts <> None /\
    average_req bs None counts <> None.
Proof.
  intros fitness bs counts Hb Hf. apply ordered_between in Hb.
  assert (Hf' : forall v, between (map bd_min bs) (map bd_max bs) v -> fitness v <> None) by (intros v Hv; apply Hf, between_borders, Hv).
  split; [|split; [|discriminate]].
  - unfold full_scan. destruct (fitness (map bd_max bs)) as [rf|] eqn:E1; [|exfalso; revert E1; apply Hf'; eapply between_high; exact Hb].
    destruct (fitness (map bd_min bs)) as [lf|] eqn:E2; [|exfalso; revert E2; apply Hf'; eapply between_low; exact Hb].
    destruct (diagonal_loop _ _ _ _ _ _ _) as [[mid up']|] eqn:Ed.
    + eapply diagonal_between in Ed as (D1 & D2 & D3); [|eapply between_low; exact Hb|eapply between_high; exact Hb|eapply between_high; exact Hb].
      apply descent_optimizer_total; [apply dichotomy_ok|apply dichotomy_ok|exact D3|].
      intros v Hv. apply Hf'. eapply between_trans; [exact D1|exact D2|exact Hv].
    + exfalso. revert Ed. eapply diagonal_total; [eapply between_low; exact Hb|eapply between_high; exact Hb|eapply between_high; exact Hb|left; split; [reflexivity|lia]|exact Hf'].
  - apply descent_optimizer_total; [apply dichotomy_ok|apply dichotomy_ok|exact Hb|exact Hf'].
Qed.
Print Assumptions optimizers_answer.
Definition rx_borders : list border := [Bd 0 1 6 8; Bd 1 2 9 20; Bd 2 3 3 3].
Definition rx_fitness (v : list Z) : option Z :=
  match v with [a; b; c] => Some (100 / a + 60 / b + c + 3 * a) | _ => None end.
Example resource_ex :
  ordered rx_borders /\ (forall v, within_borders rx_borders v -> rx_fitness v <> None) /\
  full_scan rx_fitness rx_borders None [8; 20; 3] = Some [5; 8; 3] /\
  coordinate_descent_optimizer dichotomy_int rx_fitness rx_borders None [8; 20; 3] = Some [5; 8; 3] /\
  average_req rx_borders None [8; 20; 3] = Some [3; 5; 3].
Proof.
  split; [repeat constructor; simpl; lia|]. split.
  { intros v H. repeat (inversion H as [|? ? ? ? _ H']; subst; clear H; rename H' into H). inversion H. discriminate. }
  vm_compute. repeat split; reflexivity.
Qed.

(** Findings. With two or more positions and a partial specification every one of these
    optimizers raises; with one position excluded by the specification its count is
    overwritten; the identity optimizer leaves counts above the maximum. *)
Theorem partial_specification_crashes :
  forall fitness bs fs counts, length fs = length bs -> (2 <= length bs)%nat ->
    full_scan fitness bs (Some fs) counts = None /\
    coordinate_descent_optimizer dichotomy_int fitness bs (Some fs) counts = None /\
    average_req bs (Some fs) counts = None.
Proof.
  intros fitness bs fs counts Hl H2. destruct fs as [|a [|b fs]]; simpl in Hl; try lia.
  assert (Hnone : forall d u, descent_optimizer dichotomy_int fitness (Some (a :: b :: fs)) d u = None).
  { intros d u. unfold descent_optimizer. cbn [np_truth]. destruct (coordinate_descent _ _ _ _ _); reflexivity. }
  split; [|split; [apply Hnone|reflexivity]]. unfold full_scan. destruct (fitness _); [|reflexivity]. destruct (fitness _); [|reflexivity].
  destruct (diagonal_loop _ _ _ _ _ _ _) as [[mid up']|]; [|reflexivity]. apply Hnone.
Qed.
Print Assumptions partial_specification_crashes.
Theorem single_exclusion_ignored :
  exists bs counts, length bs = 1%nat /\ ordered bs /\ average_req bs (Some [false]) counts <> Some counts /\
    full_scan (fun _ => Some 0) bs (Some [false]) counts <> Some counts.
Proof. exists [Bd 0 1 9 20], [7]. split; [reflexivity|]. split; [repeat constructor; simpl; lia|]. split; vm_compute; discriminate. Qed.
Print Assumptions single_exclusion_ignored.
Theorem identity_exceeds_maximum :
  exists bs counts, ordered bs /\ length counts = length bs /\ counts = map bd_count bs /\
    identity_optimizer bs None counts = Some counts /\ ~ within_borders bs counts.
Proof.
  exists [Bd 0 1 3 20], [20]. split; [repeat constructor; simpl; lia|]. do 3 (split; [reflexivity|]).
  intros H. inversion H; subst. simpl in *. lia.
Qed.
Print Assumptions identity_exceeds_maximum.

(** ** C51 for the schedulers as they are constructed by default *)
Lemma search_loop_ext {T} (r1 r2 : contractor -> outcome (Z * Z * T)) : (forall c, r1 c = r2 c) ->
  forall cs b bf bz, search_loop r1 cs b bf bz = search_loop r2 cs b bf bz.
Proof.
  intros H. induction cs as [|c cs IH]; intros b bf bz; simpl; [reflexivity|]. rewrite H.
  destruct (r2 c) as [[[st ft] tm]| |]; [|reflexivity|reflexivity]. rewrite !IH. reflexivity.
Qed.
Lemma search_ext {T} (r1 r2 : contractor -> outcome (Z * Z * T)) cs s : (forall c, r1 c = r2 c) ->
  run_contractor_search r1 cs s = run_contractor_search r2 cs s.
Proof.
  intros H. unfold run_contractor_search. rewrite (search_loop_ext r1 r2 H).
  destruct (search_loop _ _ _ _ _) as [[c|]| |]; try reflexivity. rewrite H. reflexivity.
Qed.
Section Ext.
  Context {S : Type} (find : sched -> S -> nat -> list worker -> bool -> Z -> option (Z * Z))
    (schedule : sched -> S -> nat -> list worker -> nat -> work_spec -> option Z -> Z -> option (sched * S))
    (reqs : nat -> list req) (o1 o2 : nat -> nat -> sched -> S -> list border -> option (list bool) -> list Z -> option (list Z))
    (cs : list contractor) (spec : nat -> work_spec).
  Hypothesis Hext : forall n c sd s bs, get_worker_borders (pool_of cs) c (reqs n) = Some bs ->
    optimize_using_spec (sp_workers (spec n)) (map bd_kind bs) (map bd_count bs) (o1 n c sd s bs) =
    optimize_using_spec (sp_workers (spec n)) (map bd_kind bs) (map bd_count bs) (o2 n c sd s bs).
  Lemma build_ext apt : forall nodes first sd s,
    build_loop S find schedule reqs o1 cs spec first apt nodes sd s = build_loop S find schedule reqs o2 cs spec first apt nodes sd s.
  Proof.
    induction nodes as [|n r IH]; intros first sd s; [reflexivity|]. cbn [build_loop].
    assert (E : forall is_last, build_step S find schedule reqs o1 cs spec first is_last apt n sd s = build_step S find schedule reqs o2 cs spec first is_last apt n sd s).
    { intros is_last. unfold build_step.
      rewrite (search_ext _ (run_with_contractor S find reqs o2 cs spec sd s n apt)); [reflexivity|].
      intros c. unfold run_with_contractor. destruct (get_worker_borders _ _ _) as [bs|] eqn:Eb; [|reflexivity].
      rewrite (Hext n _ sd s bs Eb). reflexivity. }
    rewrite E. destruct (build_step S find schedule reqs o2 cs spec first _ apt n sd s) as [[sd' s']| |]; [apply IH|reflexivity|reflexivity].
  Qed.
End Ext.
Lemma schedule_with_cache_ext {T} g nodes prioritize (b1 b2 : list nat -> outcome (sched * T)) :
  (forall l, b1 l = b2 l) -> schedule_with_cache g nodes prioritize b1 = schedule_with_cache g nodes prioritize b2.
Proof.
  intros H. unfold schedule_with_cache. destruct (head_nodes g nodes); try reflexivity.
  destruct (prioritize _ _); [|reflexivity]. rewrite H. reflexivity.
Qed.

(** the optimizer that fails when only one position is excluded, as the others do with more *)
Definition guarded {S : Type} (o : nat -> nat -> sched -> S -> list border -> option (list bool) -> list Z -> option (list Z))
    n c sd s bs flags counts : option (list Z) :=
  match flags with
  | None => o n c sd s bs None counts
  | Some fs => if Nat.eqb (length fs) (length bs) && Nat.leb (length fs) 1 then None else o n c sd s bs flags counts
  end.
Lemma within_respects : forall bs counts res, length counts = length bs -> within_borders bs res ->
  respects_borders bs (map (fun _ => true) bs) counts res.
Proof.
  intros bs counts res Hl H. revert counts Hl. induction H as [|b x bs res Hx H IH]; intros [|c counts] Hl; simpl in *; try lia; auto.
Qed.
(** No counts named by the specification for the work, or all, or the work needs more than
    one kind of workers. *)
Definition spec_usable (g : graph) (spec : nat -> work_spec) : Prop :=
  forall n, sp_workers (spec n) = [] \/ length (sp_workers (spec n)) = length (u_reqs (g_unit g n)) \/
            (2 <= length (u_reqs (g_unit g n)))%nat.
(** ... none or all *)
Definition spec_complete (g : graph) (spec : nat -> work_spec) : Prop :=
  forall n, sp_workers (spec n) = [] \/ length (sp_workers (spec n)) = length (u_reqs (g_unit g n)).

Section Guarded.
  Context {S : Type} (o : nat -> nat -> sched -> S -> list border -> option (list bool) -> list Z -> option (list Z)).
  Hypothesis Hwithin : forall n c sd s bs flags counts res, ordered bs -> o n c sd s bs flags counts = Some res -> within_borders bs res.
  Hypothesis Hcrash : forall n c sd s bs fs counts, length fs = length bs -> (2 <= length bs)%nat -> o n c sd s bs (Some fs) counts = None.
  Lemma guarded_ok n c sd s : optimizer_ok (guarded o n c sd s).
  Proof.
    intros bs flags counts res Hb Hl H. unfold guarded in H. destruct flags as [fs|].
    - intros Hf. rewrite Hf, Nat.eqb_refl in H. cbn [andb] in H. destruct (Nat.leb_spec (length bs) 1); [discriminate|].
      rewrite Hcrash in H; [discriminate|exact Hf|lia].
    - apply within_respects; [exact Hl|]. exact (Hwithin n c sd s bs None counts res Hb H).
  Qed.
End Guarded.
Section GuardedUse.
  Context {S : Type} (o : nat -> nat -> sched -> S -> list border -> option (list bool) -> list Z -> option (list Z)).
  Lemma guarded_same g cs spec n c sd s bs : spec_usable g spec -> get_worker_borders (pool_of cs) c (reqs_of g n) = Some bs ->
    optimize_using_spec (sp_workers (spec n)) (map bd_kind bs) (map bd_count bs) (o n c sd s bs) =
    optimize_using_spec (sp_workers (spec n)) (map bd_kind bs) (map bd_count bs) (guarded o n c sd s bs).
  Proof.
    intros Hs Eb. unfold optimize_using_spec. rewrite map_length.
    assert (Hl := Forall2_len _ _ _ (borders_spec _ _ _ _ Eb)). unfold reqs_of in Hl.
    destruct (Nat.eqb_spec (length (sp_workers (spec n))) (length bs)) as [E|E]; [reflexivity|].
    destruct (sp_workers (spec n)) as [|x l] eqn:Ew; [reflexivity|]. unfold guarded.
    destruct (Hs n) as [H|[H|H]]; [rewrite Ew in H; discriminate|rewrite Ew in H; lia|].
    rewrite !map_length, Nat.eqb_refl. cbn [andb]. destruct (Nat.leb_spec (length bs) 1); [lia|reflexivity].
  Qed.
  Lemma guarded_answers find g cs spec apt : (forall n, reqs_ok (reqs_of g n)) -> spec_complete g spec ->
    (forall n c sd s bs counts, ordered bs ->
       (forall v, within_borders bs v -> find sd s n (team_of_counts c bs v) (sp_independent (spec n)) apt <> None) ->
       o n c sd s bs None counts <> None) ->
    optimizer_answers find (guarded o) (reqs_of g) cs spec apt.
  Proof.
    intros Hr Hs Ho n c sd s bs Eb Hne Hf. unfold optimize_using_spec. rewrite map_length.
    destruct (Nat.eqb_spec (length (sp_workers (spec n))) (length bs)) as [E|E]; [contradiction|].
    assert (Hl := Forall2_len _ _ _ (borders_spec _ _ _ _ Eb)). unfold reqs_of in Hl.
    destruct (Hs n) as [H|H]; [|lia]. rewrite H. apply Ho; [|exact Hf]. eapply borders_ordered; eauto.
  Qed.
End GuardedUse.
Lemma complete_usable g spec : spec_complete g spec -> spec_usable g spec.
Proof. intros H n. destruct (H n); auto. Qed.

Section Defaults.
  Variables (g : graph) (nodes : list nat) (est : nat -> list worker -> Z) (prio : nat -> Z) (cs : list contractor)
    (spec : nat -> work_spec) (apt : Z).
  Let om := momentum_full_scan g est spec apt.
  Let oj := jit_full_scan g est spec apt.
  Let oa := fun (_ _ : nat) (_ : sched) (_ : mstate) => average_req.
  Lemma om_ok : (forall n c sd s bs flags counts res, ordered bs -> om n c sd s bs flags counts = Some res -> within_borders bs res) /\
    (forall n c sd s bs fs counts, length fs = length bs -> (2 <= length bs)%nat -> om n c sd s bs (Some fs) counts = None).
  Proof.
    split; intros.
    - match goal with H : _ = Some _ |- _ => eapply full_scan_within_borders; [eassumption|exact H] end.
    - unfold om, oj, momentum_full_scan, jit_full_scan. apply partial_specification_crashes; assumption.
  Qed.
  Lemma oj_ok : (forall n c sd s bs flags counts res, ordered bs -> oj n c sd s bs flags counts = Some res -> within_borders bs res) /\
    (forall n c sd s bs fs counts, length fs = length bs -> (2 <= length bs)%nat -> oj n c sd s bs (Some fs) counts = None).
  Proof.
    split; intros.
    - match goal with H : _ = Some _ |- _ => eapply full_scan_within_borders; [eassumption|exact H] end.
    - unfold om, oj, momentum_full_scan, jit_full_scan. apply partial_specification_crashes; assumption.
  Qed.
  Lemma oa_ok : (forall n c sd s bs flags counts res, ordered bs -> oa n c sd s bs flags counts = Some res -> within_borders bs res) /\
    (forall n c sd s bs fs counts, length fs = length bs -> (2 <= length bs)%nat -> oa n c sd s bs (Some fs) counts = None).
  Proof.
    split; intros.
    - eapply average_within_borders; eauto.
    - apply (partial_specification_crashes (fun _ => None)); assumption.
  Qed.
  Lemma between_default_eq : spec_usable g spec ->
    heft_between_default g nodes est prio cs spec apt = heft_between g nodes est prio (guarded om) cs spec apt.
  Proof.
    intros Hs. apply schedule_with_cache_ext. intros l. apply build_ext. intros. apply (guarded_same om g cs spec); assumption.
  Qed.
  Lemma end_default_eq : spec_usable g spec ->
    heft_end_default g nodes est prio cs spec apt = heft_end g nodes est prio (guarded oj) cs spec apt.
  Proof.
    intros Hs. apply schedule_with_cache_ext. intros l. apply build_ext. intros. apply (guarded_same oj g cs spec); assumption.
  Qed.
  Lemma topological_default_eq shuffle : spec_usable g spec ->
    topological_default g nodes est prio shuffle cs spec apt = topological_scheduler g nodes est prio shuffle (guarded oa) cs spec apt.
  Proof.
    intros Hs. apply schedule_with_cache_ext. intros l. apply build_ext. intros. apply (guarded_same oa g cs spec); assumption.
  Qed.
  Lemma om_answers : (forall n, reqs_ok (reqs_of g n)) -> spec_complete g spec ->
    optimizer_answers (momentum_times g est) (guarded om) (reqs_of g) cs spec apt.
  Proof.
    intros Hr Hs. apply guarded_answers; [exact Hr|exact Hs|]. intros n c sd s bs counts Hb Hf.
    unfold om, momentum_full_scan. apply (optimizers_answer (momentum_objective g est spec apt n c sd s bs) bs counts Hb).
    intros v Hv. apply Hf in Hv. unfold momentum_objective. destruct (momentum_times _ _ _ _ _ _ _ _) as [[st ft]|]; [discriminate|contradiction].
  Qed.
  Lemma oa_answers : (forall n, reqs_ok (reqs_of g n)) -> spec_complete g spec ->
    optimizer_answers (momentum_times g est) (guarded oa) (reqs_of g) cs spec apt.
  Proof.
    intros Hr Hs. apply guarded_answers; [exact Hr|exact Hs|]. intros n c sd s bs counts Hb Hf. discriminate.
  Qed.
  Lemma cascade_total n team : graph_ok g nodes -> working_time_cascade g est n team <> None.
  Proof.
    intros Hg. unfold working_time_cascade. destruct (is_son g n) eqn:Es; [discriminate|].
    destruct (inseparable_chain_correct g n (graph_chains g nodes Hg)) as (c & -> & _); [|discriminate].
    apply parent_none. unfold is_son in Es. destruct (inseparable_parent g n); [discriminate|reflexivity].
  Qed.
  Lemma oj_answers : graph_ok g nodes -> (forall n, reqs_ok (reqs_of g n)) -> spec_complete g spec ->
    optimizer_answers (jit_find g est) (guarded oj) (reqs_of g) cs spec apt.
  Proof.
    intros Hg Hr Hs. apply guarded_answers; [exact Hr|exact Hs|]. intros n c sd s bs counts Hb Hf.
    unfold oj, jit_full_scan. apply (optimizers_answer (jit_objective g est spec apt n c sd s bs) bs counts Hb).
    intros v Hv. apply Hf in Hv. unfold jit_objective. destruct (jit_find _ _ _ _ _ _ _ _) as [[st ft]|]; [|contradiction].
    destruct (working_time_cascade g est n _) eqn:E; [discriminate|]. exfalso. revert E. apply cascade_total. exact Hg.
  Qed.
End Defaults.

(** HEFTBetweenScheduler() *)
Theorem heft_between_default_feasible :
  forall g nodes est prio cs spec apt sd s,
    graph_ok g nodes -> priorities_ok g nodes prio -> inputs_ok g est cs spec apt -> spec_usable g spec ->
    Z.of_nat (length nodes) < TIME_INF ->
    heft_between_default g nodes est prio cs spec apt = Scheduled sd s ->
    feasible g cs spec nodes sd /\
    (forall e wu wv, In e (g_edges g) -> In (e_from e, wu) sd -> In (e_to e, wv) sd ->
       (forall h, is_head g nodes h -> in_chain g h (e_from e) -> ~ in_chain g h (e_to e)) ->
       (forall h, is_head g nodes h -> in_chain g h (e_to e) -> sp_time (spec h) = None \/ e_to e = h) ->
       tadd (sw_finish wu) (e_lag e) <= sw_start wv).
Proof.
  intros g nodes est prio cs spec apt sd s Hg Hp Hi Hu Hlen H. rewrite between_default_eq in H by exact Hu.
  eapply heft_between_feasible; [exact Hg|exact Hp|exact Hi| |exact Hlen|exact H].
  intros. apply guarded_ok; apply om_ok.
Qed.
Print Assumptions heft_between_default_feasible.
Theorem heft_between_default_total :
  forall g nodes est prio cs spec apt,
    graph_ok g nodes -> priorities_ok g nodes prio -> inputs_ok g est cs spec apt -> spec_complete g spec ->
    Z.of_nat (length nodes) < TIME_INF ->
    times_fit g est cs spec nodes apt -> (forall n, sp_time (spec n) = None) -> (forall n, spec_fits cs (reqs_of g n) (spec n)) ->
    (forall n, u_service (g_unit g n) = true -> reqs_of g n = []) ->
    (forall h m, is_head g nodes h -> in_chain g h m -> map r_kind (reqs_of g m) = map r_kind (reqs_of g h)) ->
    let r := heft_between_default g nodes est prio cs spec apt in
    (exists sd s, r = Scheduled sd s) \/ (r = CircularGraph /\ chains_cyclic g nodes) \/
    (r = NotEnoughWorkers /\ exists n, is_head g nodes n /\ nobody_able g cs spec n).
Proof.
  intros g nodes est prio cs spec apt Hg Hp Hi Hu Hlen Hfit Hst Hsf Hsv Hsh. cbv zeta.
  rewrite between_default_eq by (apply complete_usable; exact Hu).
  apply heft_between_total; try assumption.
  - intros. apply guarded_ok; apply om_ok.
  - apply om_answers; [apply Hi|exact Hu].
Qed.
Print Assumptions heft_between_default_total.
(** HEFTScheduler() *)
Theorem heft_end_default_feasible :
  forall g nodes est prio cs spec apt sd s,
    graph_ok g nodes -> priorities_ok g nodes prio -> inputs_ok g est cs spec apt -> spec_usable g spec ->
    (forall n, spec_fits cs (reqs_of g n) (spec n)) ->
    heft_end_default g nodes est prio cs spec apt = Scheduled sd s ->
    feasible g cs spec nodes sd /\
    (forall e wu wv, In e (g_edges g) -> In (e_from e, wu) sd -> In (e_to e, wv) sd ->
       tadd (sw_finish wu) (e_lag e) <= sw_start wv).
Proof.
  intros g nodes est prio cs spec apt sd s Hg Hp Hi Hu Hsf H. rewrite end_default_eq in H by exact Hu.
  eapply heft_end_feasible; [exact Hg|exact Hp|exact Hi| |exact Hsf|exact H].
  intros. apply guarded_ok; apply oj_ok.
Qed.
Print Assumptions heft_end_default_feasible.
Theorem heft_end_default_total :
  forall g nodes est prio cs spec apt,
    graph_ok g nodes -> priorities_ok g nodes prio -> inputs_ok g est cs spec apt -> spec_complete g spec ->
    (forall n, spec_fits cs (reqs_of g n) (spec n)) ->
    times_fit g est cs spec nodes apt -> (forall n, sp_time (spec n) = None) -> inseparable_lags_ok g ->
    let r := heft_end_default g nodes est prio cs spec apt in
    (exists sd s, r = Scheduled sd s) \/ (r = CircularGraph /\ chains_cyclic g nodes) \/
    (r = NotEnoughWorkers /\ exists n, is_head g nodes n /\ nobody_able g cs spec n).
Proof.
  intros g nodes est prio cs spec apt Hg Hp Hi Hu Hsf Hfit Hst Hlg. cbv zeta.
  rewrite end_default_eq by (apply complete_usable; exact Hu).
  apply heft_end_total; try assumption.
  - intros. apply guarded_ok; apply oj_ok.
  - apply (oj_answers g nodes); [exact Hg|apply Hi|exact Hu].
Qed.
Print Assumptions heft_end_default_total.
(** TopologicalScheduler() *)
Theorem topological_default_feasible :
  forall g nodes est prio shuffle cs spec apt sd s,
    graph_ok g nodes -> priorities_ok g nodes prio -> (forall l, Permutation (shuffle l) l) -> inputs_ok g est cs spec apt ->
    spec_usable g spec -> Z.of_nat (length nodes) < TIME_INF ->
    topological_default g nodes est prio shuffle cs spec apt = Scheduled sd s ->
    feasible g cs spec nodes sd /\
    (forall e wu wv, In e (g_edges g) -> In (e_from e, wu) sd -> In (e_to e, wv) sd ->
       (forall h, is_head g nodes h -> in_chain g h (e_from e) -> ~ in_chain g h (e_to e)) ->
       (forall h, is_head g nodes h -> in_chain g h (e_to e) -> sp_time (spec h) = None \/ e_to e = h) ->
       tadd (sw_finish wu) (e_lag e) <= sw_start wv).
Proof.
  intros g nodes est prio shuffle cs spec apt sd s Hg Hp Hsh Hi Hu Hlen H. rewrite topological_default_eq in H by exact Hu.
  eapply topological_scheduler_feasible; [exact Hg|exact Hp|exact Hsh|exact Hi| |exact Hlen|exact H].
  intros. apply guarded_ok; apply oa_ok.
Qed.
Print Assumptions topological_default_feasible.
(** The example graph: [pipeline_hypotheses] lists the other hypotheses. *)
Definition rx_times : list (nat * Z * Z) :=
  [(0%nat, 0, 0); (1%nat, 0, 6); (2%nat, 6, 13); (3%nat, 2, 10); (4%nat, 13, 22); (5%nat, 22, 22)].
Example defaults_ex :
  spec_complete sx_graph sx_spec /\
  match heft_end_default sx_graph px_nodes sx_est (fun _ => 1) sx_contractors sx_spec 0 with Scheduled sd _ => times sd | _ => [] end = rx_times /\
  match heft_between_default sx_graph px_nodes sx_est (fun _ => 1) sx_contractors sx_spec 0 with Scheduled sd _ => times sd | _ => [] end = rx_times /\
  match topological_default sx_graph px_nodes sx_est (fun _ => 1) (fun l => l) sx_contractors sx_spec 0 with Scheduled sd _ => times sd | _ => [] end = rx_times.
Proof.
  split. { intros n. unfold sx_spec. destruct (Nat.eqb n 4); auto. }
  vm_compute. repeat split; reflexivity.
Qed.
(** Finding: a specification that names one of two needed kinds makes the schedulers fail. *)
Theorem partial_specification_fails :
  let spec := fun n => if Nat.eqb n 4 then WSpec [] [(0%nat, 2)] None false else WSpec [] [] None false in
  (forall n, spec_fits sx_contractors (reqs_of sx_graph n) (spec n)) /\
  heft_end_default sx_graph px_nodes sx_est (fun _ => 1) sx_contractors spec 0 = InternalError /\
  heft_between_default sx_graph px_nodes sx_est (fun _ => 1) sx_contractors spec 0 = InternalError.
Proof.
  cbv zeta. split; [|split; vm_compute; reflexivity].
  intros n. destruct (Nat.eqb_spec n 4) as [->|]; split; cbn; try tauto; try discriminate.
  - intros ct k m x [<-|[<-|[]]] _ [[= <- <-]|[]]; cbn; intros [[= <-]|[[= ]|[]]]; lia.
  - intros H r Hr. destruct (reqs_of sx_graph n); [destruct Hr|discriminate].
Qed.
Print Assumptions partial_specification_fails.
