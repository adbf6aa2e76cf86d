(** Properties C63, C64, C65: what the genetic search answers, for chromosomes of any type,
    every fitness function, every way of producing offspring and every random choice. *)
From Coq Require Import ZArith List Bool Lia Arith Permutation.
From Verif Require Import GeneticResModel GaModel GaProofs.
Import ListNotations.
Local Open Scope Z_scope.

(** Values [a] are no worse than [b] in any objective: positive weights are maximized,
    negative ones minimized. *)
Definition no_worse (weights a b : list Z) : Prop :=
  forall j w x y, nth_error weights j = Some w -> nth_error a j = Some x -> nth_error b j = Some y -> w * y <= w * x.

Lemma weighted_nth w v j : nth_error (weighted w v) j =
  match nth_error v j, nth_error w j with Some x, Some y => Some (x * y) | _, _ => None end.
Proof.
  unfold weighted. revert w j. induction v as [|x v IH]; intros [|y w] [|j]; simpl; try reflexivity.
  - destruct (nth_error v j); reflexivity.
  - apply IH.
Qed.
Lemma forall2_nth_error {A B} (P : A -> B -> Prop) : forall l r, length l = length r ->
  (forall j x y, nth_error l j = Some x -> nth_error r j = Some y -> P x y) -> Forall2 P l r.
Proof.
  induction l as [|x l IH]; intros [|y r] L H; simpl in L; try discriminate; constructor.
  - apply (H O); reflexivity.
  - apply IH; [congruence|]. intros j a b Ha Hb. apply (H (S j)); assumption.
Qed.
Lemma forall2_nth2 {A B} (P : A -> B -> Prop) l r : Forall2 P l r ->
  forall j x y, nth_error l j = Some x -> nth_error r j = Some y -> P x y.
Proof. induction 1; intros [|j] a b Ha Hb; simpl in *; try discriminate; [congruence|eauto]. Qed.
Lemma nw_no_worse {C} w (a b : individual C) : sized w a -> sized w b -> nw w a b <-> no_worse w (i_values a) (i_values b).
Proof.
  intros Ha Hb. unfold nw, no_worse, key. split.
  - intros H j u x y Hu Hx Hy. assert (G := forall2_nth2 _ _ _ H j (y * u) (x * u)). rewrite !weighted_nth, Hu, Hx, Hy in G.
    specialize (G eq_refl eq_refl). cbv beta in G. lia.
  - intros H. apply forall2_nth_error; [fold (key w a) (key w b); rewrite !(key_length w); auto|]. intros j p q Hp Hq.
    rewrite weighted_nth in Hp, Hq. specialize (H j).
    destruct (nth_error (i_values a) j) as [x|]; [|discriminate]. destruct (nth_error (i_values b) j) as [y|]; [|discriminate].
    destruct (nth_error w j) as [u|]; [|discriminate]. injection Hp as <-. injection Hq as <-. specialize (H u x y eq_refl eq_refl eq_refl). lia.
Qed.

(** Where the chromosomes of a search come from: the first population or offspring of some
    generation. *)
Definition produced {C} (offspring : nat -> nat -> bool -> list C -> option (list C)) (optimize : bool) (init : list C) (c : C) : Prop :=
  In c init \/ exists s g cs cs', offspring s g optimize cs = Some cs' /\ In c cs'.

Section Facts.
  Context {C : Type}.
  Notation ind := (individual C).
  Variable shuffle : nat -> nat -> list ind -> list ind.
  Variable offspring : nat -> nat -> bool -> list C -> option (list C).
  Variable timeout : nat -> nat -> bool.
  Variable nsga2 : nat -> nat -> list ind -> list ind.
  Variable multi : bool.
  Variable size : nat.
  Hypothesis shuffle_ok : forall s g l, Permutation (shuffle s g l) l.
  Hypothesis nsga2_ok : forall s g l, incl (nsga2 s g l) l.
  Variable w : list Z.
  Variable fit : C -> option (list Z).
  Hypothesis fit_sized : forall c v, fit c = Some v -> length v = length w.

  Definition measured (x : ind) : Prop := fit (i_ch x) = Some (i_values x).
  Lemma measured_sized x : measured x -> sized w x.
  Proof. intros H. exact (fit_sized _ _ H). Qed.
  Lemma evaluate_spec cs pop : evaluate fit cs = Some pop -> (forall x, In x pop -> measured x /\ In (i_ch x) cs) /\
    (forall c, In c cs -> exists x, In x pop /\ i_ch x = c).
  Proof.
    intros H. apply sequence_spec in H. split.
    - intros x Hx. destruct (forall2_right _ _ _ _ H Hx) as (c & Hc & E). destruct (fit c) as [v|] eqn:Ef; [|discriminate].
      injection E as <-. split; [exact Ef|exact Hc].
    - intros c Hc. destruct (forall2_left _ _ _ _ H Hc) as (x & Hx & E). destruct (fit c) as [v|]; [|discriminate]. injection E as <-. eauto.
  Qed.
  Lemma first_stage_spec enough opt mp number init st :
    first_stage shuffle offspring timeout nsga2 multi size w fit enough opt mp number init = Some st ->
    stage_ok w measured st /\
    (forall c, In c init -> exists x, In x (st_seen st) /\ i_ch x = c /\ covered w (st_hof st) x) /\
    (length w = 1%nat -> multi = false -> (0 < size)%nat -> keeps_best w st).
  Proof.
    unfold first_stage. destruct (evaluate fit init) as [pop|] eqn:Ee; [|discriminate]. cbv zeta.
    destruct (evaluate_spec _ _ Ee) as [E1 E2].
    destruct (front_update_spec w pop []) as (F1 & F2 & F3); [constructor|intros h []|intros x Hx; apply measured_sized, E1, Hx|].
    destruct (front_update w [] pop) as [|h r] eqn:Eh; [discriminate|]. intros H.
    assert (Hok : stage_ok w measured (Stage pop (h :: r) (i_values h) 1 pop)).
    { split; [exact F1|]. split; [exact F2|]. split; [intros x; exact (fun z => z)|]. split; [intros x Hx; apply E1, Hx|].
      split; [exists h, r; auto|exact F3]. }
    assert (Hev : forall cs off, evaluate fit cs = Some off -> forall x, In x off -> measured x) by (intros cs off Ho x Hx; apply (evaluate_spec _ _ Ho); exact Hx).
    destruct (run_spec shuffle offspring timeout nsga2 multi size shuffle_ok nsga2_ok w _ enough measured measured_sized Hev _ _ _ _ _ _ _ _ _ _ _ H Hok)
      as (R1 & R2 & R3).
    split; [exact R1|]. split.
    - intros c Hc. destruct (E2 c Hc) as (x & Hx & Ex). exists x. split; [apply R2, Hx|]. split; [exact Ex|]. apply R3, F3, Hx.
    - intros L Hm Hs. eapply (run_best shuffle offspring timeout nsga2 multi size shuffle_ok nsga2_ok w _ enough measured measured_sized Hev L Hm Hs); [exact H|exact Hok|].
      assert (Hne : pop <> []) by (intros E; subst pop; simpl in Eh; discriminate).
      destruct (select_best_keeps w 1 pop ltac:(lia) Hne) as (m & M1 & M2); [intros x Hx; apply measured_sized, E1, Hx|].
      assert (Hm' : In m pop) by (apply (select_best_incl w 1), M1).
      exists m. cbn [st_pop st_seen]. split; [exact Hm'|]. intros x Hx.
      apply one_objective; [exact L|apply measured_sized, E1, Hm'|apply measured_sized, E1, Hx|apply M2, Hx].
  Qed.
  (** the origin of what was evaluated *)
  Lemma run_produced (eval : list C -> option (list ind)) enough opt init :
    (forall cs off, eval cs = Some off -> forall x, In x off -> In (i_ch x) cs) ->
    forall left mp s gen pl pop hof best seen st,
    generations shuffle offspring timeout nsga2 multi size w eval enough opt mp s left gen pl pop hof best seen = Some st ->
    (forall x, In x seen -> produced offspring opt init (i_ch x)) -> forall x, In x (st_seen st) -> produced offspring opt init (i_ch x).
  Proof.
    intros Hev. induction left as [|left IH]; intros mp s gen pl pop hof best seen st H Hs; cbn [generations] in H; [injection H as <-; exact Hs|].
    destruct (_ && _) in H; [|injection H as <-; exact Hs]. cbv zeta in H.
    destruct (offspring s gen opt _) as [cs|] eqn:Eo; [|discriminate]. destruct (eval cs) as [off|] eqn:Ee; [|discriminate].
    destruct (front_update _ _ _) as [|h r]; [discriminate|].
    assert (Hs' : forall x, In x (seen ++ off) -> produced offspring opt init (i_ch x)).
    { intros x Hx. apply in_app_or in Hx as [Hx|Hx]; [apply Hs, Hx|]. right. exists s, gen, (map i_ch (shuffle s gen pop)), cs. split; [exact Eo|eapply Hev; eauto]. }
    destruct (enough _ _); [injection H as <-; exact Hs'|]. eapply IH; eauto.
  Qed.
End Facts.

(** C63. Every answer was produced by the search and carries its true fitness, no answer is
    worse than another, and the whole first and last population are matched or improved by
    an answer. *)
Theorem genetic_front :
  forall C (shuffle : nat -> nat -> list (individual C) -> list (individual C)) offspring timeout nsga2 multi size weights fit optimize max_plateau number init st,
    (forall s g l, Permutation (shuffle s g l) l) -> (forall s g l, incl (nsga2 s g l) l) ->
    (forall c v, fit c = Some v -> length v = length weights) ->
    genetic_search shuffle offspring timeout nsga2 multi size weights fit optimize max_plateau number init = Some st ->
    st_hof st <> [] /\
    (forall h, In h (st_hof st) -> produced offspring optimize init (i_ch h) /\ fit (i_ch h) = Some (i_values h)) /\
    (forall a b, In a (st_hof st) -> In b (st_hof st) -> no_worse weights (i_values a) (i_values b) -> a = b) /\
    (forall c v, In c init -> fit c = Some v -> exists h, In h (st_hof st) /\ no_worse weights (i_values h) v) /\
    (forall x, In x (st_pop st) -> fit (i_ch x) = Some (i_values x) /\
       exists h, In h (st_hof st) /\ no_worse weights (i_values h) (i_values x)).
Proof.
  intros C shuffle offspring timeout nsga2 multi size w fit opt mp number init st Hsh Hn Hf H.
  destruct (first_stage_spec shuffle offspring timeout nsga2 multi size Hsh Hn w fit Hf _ _ _ _ _ _ H) as ((A1 & A2 & A3 & A4 & (h0 & r0 & E0 & _) & A6) & B & _).
  assert (Hsz : forall x, In x (st_seen st) -> sized w x) by (intros x Hx; exact (Hf _ _ (A4 x Hx))).
  assert (Hp : forall x, In x (st_seen st) -> produced offspring opt init (i_ch x)).
  { unfold genetic_search, first_stage in H. destruct (evaluate fit init) as [pop|] eqn:Ee; [|discriminate]. cbv zeta in H.
    destruct (front_update w [] pop) as [|h r]; [discriminate|].
    eapply (run_produced shuffle offspring timeout nsga2 multi size w); [|exact H|].
    - intros cs off Ho x Hx. destruct (evaluate_spec fit cs off Ho) as [E1 _]. apply E1, Hx.
    - intros x Hx. left. destruct (evaluate_spec fit init pop Ee) as [E1 _]. apply E1, Hx. }
  split; [rewrite E0; discriminate|]. split; [intros h Hh; split; [apply Hp, A2, Hh|apply A4, A2, Hh]|].
  split; [intros a b Ha Hb Hab; apply (incomparable_in w (st_hof st)); auto; apply nw_no_worse; auto|].
  split.
  - intros c v Hc Hv. destruct (B c Hc) as (x & Hx & <- & (h & Hh & Hnw)). assert (Hm := A4 x Hx). unfold measured in Hm. rewrite Hm in Hv. injection Hv as <-.
    exists h. split; [exact Hh|]. apply nw_no_worse in Hnw; auto.
  - intros x Hx. split; [apply A4, A3, Hx|]. destruct (A6 x Hx) as (h & Hh & Hnw). exists h. split; [exact Hh|]. apply nw_no_worse in Hnw; auto.
Qed.
Print Assumptions genetic_front.

(** C64. With one objective there is one answer, and it is at least as good as every
    individual that was ever evaluated. *)
Theorem genetic_best_of_all :
  forall C (shuffle : nat -> nat -> list (individual C) -> list (individual C)) offspring timeout nsga2 size weight fit optimize max_plateau number init st,
    (forall s g l, Permutation (shuffle s g l) l) -> (forall s g l, incl (nsga2 s g l) l) ->
    (forall c v, fit c = Some v -> length v = 1%nat) -> (0 < size)%nat ->
    genetic_search shuffle offspring timeout nsga2 false size [weight] fit optimize max_plateau number init = Some st ->
    exists h v, st_hof st = [h] /\ fit (i_ch h) = Some [v] /\
      (forall c, In c init -> exists u, fit c = Some [u] /\ weight * u <= weight * v) /\
      (forall x, In x (st_seen st) -> exists u, fit (i_ch x) = Some [u] /\ weight * u <= weight * v).
Proof.
  intros C shuffle offspring timeout nsga2 size w fit opt mp number init st Hsh Hn Hf Hsize H.
  destruct (first_stage_spec shuffle offspring timeout nsga2 false size Hsh Hn [w] fit Hf _ _ _ _ _ _ H) as ((A1 & A2 & A3 & A4 & (h & r & E0 & _) & A6) & B & K).
  specialize (K eq_refl eq_refl Hsize). destruct K as (m & M1 & M2).
  assert (Hsz : forall x, In x (st_seen st) -> sized [w] x) by (intros x Hx; exact (Hf _ _ (A4 x Hx))).
  assert (L := one_objective_front [w] (st_hof st) eq_refl A1 (fun a Ha => Hsz a (A2 a Ha))).
  rewrite E0 in L. simpl in L. destruct r; [|simpl in L; lia].
  assert (Hh : In h (st_seen st)) by (apply A2; rewrite E0; left; reflexivity).
  assert (Hv := A4 h Hh). assert (Lv := Hf _ _ Hv). unfold measured in Hv. destruct (i_values h) as [|v [|]] eqn:Ev; simpl in Lv; try lia.
  exists h, v. split; [exact E0|]. split; [exact Hv|].
  assert (Hall : forall x, In x (st_seen st) -> exists u, fit (i_ch x) = Some [u] /\ w * u <= w * v).
  { intros x Hx. assert (Hu := A4 x Hx). assert (Lu := Hf _ _ Hu). unfold measured in Hu. destruct (i_values x) as [|u [|]] eqn:Eu; simpl in Lu; try lia.
    exists u. split; [exact Hu|]. destruct (A6 m M1) as (h' & Hh' & Hnw). rewrite E0 in Hh'. destruct Hh' as [<-|[]].
    assert (Hhx : nw [w] h x) by (eapply nw_trans; [exact Hnw|apply M2, Hx]). apply nw_no_worse in Hhx; auto.
    apply (Hhx O w v u); rewrite ?Ev, ?Eu; reflexivity. }
  split; [|exact Hall]. intros c Hc. destruct (B c Hc) as (x & Hx & <- & _). apply Hall, Hx.
Qed.
Print Assumptions genetic_best_of_all.

(** Lemmas for deadlines. *)
Section Deadline.
  Context {C : Type}.
  Notation ind := (individual C).
  Variable time_fit fit : C -> option (list Z).
  Hypothesis time_one : forall c v, time_fit c = Some v -> length v = 1%nat.
  (** both measures of an individual of the second stage *)
  Definition timed (ok : Z -> Prop) (x : ind) : Prop :=
    fit (i_ch x) = Some (i_values x) /\ time_fit (i_ch x) = Some [i_time x] /\ ok (i_time x).
  Lemma evaluate_again_spec (ok : Z -> Prop) pop pop' :
    evaluate_again fit pop = Some pop' -> (forall x, In x pop -> time_fit (i_ch x) = Some [i_time x] /\ ok (i_time x)) ->
    (forall x, In x pop' -> timed ok x /\ exists y, In y pop /\ i_ch y = i_ch x) /\ (forall y, In y pop -> exists x, In x pop' /\ i_ch x = i_ch y).
  Proof.
    intros H Hp. apply sequence_spec in H. split.
    - intros x Hx. destruct (forall2_right _ _ _ _ H Hx) as (y & Hy & E). destruct (fit (i_ch y)) as [v|] eqn:Ef; [|discriminate].
      injection E as <-. split; [|exists y; auto]. split; [exact Ef|]. exact (Hp y Hy).
    - intros y Hy. destruct (forall2_left _ _ _ _ H Hy) as (x & Hx & E). destruct (fit (i_ch y)) as [v|]; [|discriminate]. injection E as <-. eauto.
  Qed.
  Lemma evaluate_in_time_spec deadline cs off : evaluate_in_time time_fit fit deadline cs = Some off ->
    forall x, In x off -> timed (fun t => t <= deadline) x.
  Proof.
    unfold evaluate_in_time. destruct (sequence _) as [l|] eqn:E; [|discriminate]. intros H x Hx.
    apply sequence_spec in E. destruct (evaluate_again_spec (fun t => t <= deadline) _ _ H) as [R _]; [|apply R, Hx].
    intros y Hy. apply filter_In in Hy as [Hy Hd]. destruct (forall2_right _ _ _ _ E Hy) as (c & _ & Ec).
    destruct (time_fit c) as [v|] eqn:Ev; [|discriminate]. injection Ec as <-. cbn [i_ch i_time] in *.
    assert (L := time_one _ _ Ev). destruct v as [|t [|]]; simpl in L; try lia. split; [exact Ev|]. apply Z.leb_le. exact Hd.
  Qed.
End Deadline.

(** C65. With a deadline: if any individual of the first stage meets the deadline, all
    answers meet it; otherwise all answers have the least time that was found. Either way
    no answer is worse than another by the user's fitness, and with one objective the
    answer is at least as good as everything evaluated in the second stage (the kept
    individuals of the first and all offspring in time). *)
Theorem genetic_deadline :
  forall C (shuffle : nat -> nat -> list (individual C) -> list (individual C)) offspring timeout nsga2 choices size weights time_fit fit
         deadline optimize max_plateau number init st1 st2,
    (forall s g l, Permutation (shuffle s g l) l) -> (forall s g l, incl (nsga2 s g l) l) ->
    (forall l k, incl (choices l k) l) -> (0 < size)%nat ->
    (forall c v, time_fit c = Some v -> length v = 1%nat) -> (forall c v, fit c = Some v -> length v = length weights) ->
    genetic_search_deadline shuffle offspring timeout nsga2 choices false size weights time_fit fit deadline optimize max_plateau number init
      = Some (st1, st2) ->
    st_hof st2 <> [] /\
    (forall h, In h (st_hof st2) -> exists t, time_fit (i_ch h) = Some [t] /\
       (* the deadline is met if it was ever met *)
       ((exists x u, In x (st_seen st1) /\ time_fit (i_ch x) = Some [u] /\ u <= deadline) -> t <= deadline) /\
       (* otherwise the best time *)
       (~ (exists x u, In x (st_seen st1) /\ time_fit (i_ch x) = Some [u] /\ u <= deadline) ->
        forall x, In x (st_seen st1) -> exists u, time_fit (i_ch x) = Some [u] /\ t <= u)) /\
    (forall c, In c init -> exists x, In x (st_seen st1) /\ i_ch x = c) /\
    (forall h, In h (st_hof st2) -> fit (i_ch h) = Some (i_values h)) /\
    (forall a b, In a (st_hof st2) -> In b (st_hof st2) -> no_worse weights (i_values a) (i_values b) -> a = b) /\
    (length weights = 1%nat -> forall x, In x (st_seen st2) -> exists h, In h (st_hof st2) /\ no_worse weights (i_values h) (i_values x)).
Proof.
  intros C shuffle offspring timeout nsga2 choices size w tf fit dl opt mp number init st1 st2 Hsh Hn Hch Hsize Ht Hf H.
  unfold genetic_search_deadline in H. destruct (first_stage _ _ _ _ _ _ _ _ _ _ _ _ _) as [st|] eqn:E1; [|discriminate].
  destruct (second_stage _ _ _ _ _ _ _ _ _ _ _ _ _ _) as [st'|] eqn:E2; [|discriminate]. injection H as -> ->.
  destruct (first_stage_spec shuffle offspring timeout nsga2 false size Hsh Hn [-1] tf Ht _ _ _ _ _ _ E1) as ((A1 & A2 & A3 & A4 & (h0 & r0 & E0 & Eb) & A6) & B & K).
  specialize (K eq_refl eq_refl Hsize). destruct K as (m & M1 & M2).
  assert (Hone : forall x, In x (st_seen st1) -> exists u, i_values x = [u] /\ tf (i_ch x) = Some [u]).
  { intros x Hx. assert (Hu := A4 x Hx). unfold measured in Hu. assert (Lu := Ht _ _ Hu). destruct (i_values x) as [|u [|]]; simpl in Lu; try lia. eauto. }
  assert (Hsz : forall x, In x (st_seen st1) -> sized [-1] x) by (intros x Hx; exact (Ht _ _ (A4 x Hx))).
  destruct (Hone m (A3 m M1)) as (tm & Vm & Tm).
  assert (Hmin : forall x u, In x (st_seen st1) -> i_values x = [u] -> tm <= u).
  { intros x u Hx Hu. assert (G := M2 x Hx). apply nw_no_worse in G; auto. specialize (G O (-1) tm u eq_refl). rewrite Vm, Hu in G. specialize (G eq_refl eq_refl). lia. }
  (* the best time is the time of [m] *)
  assert (Hbest : st_best st1 = [tm]).
  { rewrite Eb. assert (Hh : In h0 (st_seen st1)) by (apply A2; rewrite E0; left; reflexivity).
    destruct (Hone h0 Hh) as (u & Vu & _). rewrite Vu. f_equal. assert (G1 := Hmin h0 u Hh Vu).
    destruct (A6 m M1) as (h' & Hh' & Hnw).
    assert (L := one_objective_front [-1] (st_hof st1) eq_refl A1 (fun a Ha => Hsz a (A2 a Ha))). rewrite E0 in L, Hh'. simpl in L. destruct r0; [|simpl in L; lia].
    destruct Hh' as [<-|[]]. apply nw_no_worse in Hnw; auto. specialize (Hnw O (-1) u tm eq_refl). rewrite Vm, Vu in Hnw. specialize (Hnw eq_refl eq_refl). lia. }
  assert (Hreach : (exists x u, In x (st_seen st1) /\ tf (i_ch x) = Some [u] /\ u <= dl) <-> tm <= dl).
  { split; [|intros G; exists m, tm; auto]. intros (x & u & Hx & Hu & Hd). destruct (Hone x Hx) as (u' & V & T). rewrite T in Hu. injection Hu as ->. specialize (Hmin x u Hx V). lia. }
  unfold second_stage in E2. cbv zeta in E2. rewrite Hbest in E2. cbn [hd] in E2.
  set (ok := fun t => if tm <=? dl then t <= dl else t = tm).
  set (kept := filter _ _) in E2. destruct (evaluate_again fit kept) as [pop|] eqn:Ea; [|discriminate].
  assert (Hk : forall x, In x kept -> tf (i_ch x) = Some [i_time x] /\ ok (i_time x)).
  { intros x Hx. unfold kept in Hx. apply filter_In in Hx as [Hx Hc]. apply in_map_iff in Hx as (y & <- & Hy). cbn [i_ch i_time] in *.
    destruct (Hone y (A3 y Hy)) as (u & V & T). rewrite V in *. cbn [hd] in *. split; [exact T|].
    unfold ok. destruct (tm <=? dl); [apply Z.leb_le|apply Z.eqb_eq]; exact Hc. }
  destruct (evaluate_again_spec tf fit ok _ _ Ea Hk) as [P1 P2].
  assert (Hmk : In (Ind (i_ch m) (i_values m) tm) kept).
  { unfold kept. apply filter_In. split; [apply in_map_iff; exists m; rewrite Vm; auto|]. cbn [i_time].
    destruct (tm <=? dl) eqn:Ed; [first [exact Ed|reflexivity]|apply Z.eqb_refl]. }
  destruct (P2 _ Hmk) as (m' & Hm' & _).
  assert (Hsz2 : forall x, timed tf fit ok x -> sized w x) by (intros x (F & _); exact (Hf _ _ F)).
  destruct (front_update_spec w pop []) as (F1 & F2 & F3); [constructor|intros h []|intros x Hx; apply Hsz2, P1, Hx|].
  assert (Hinit : forall c, In c init -> exists x, In x (st_seen st1) /\ i_ch x = c) by (intros c Hc; destruct (B c Hc) as (x & Hx & Ex & _); eauto).
  assert (Hans : forall h : individual C, timed tf fit ok h -> exists t, tf (i_ch h) = Some [t] /\
       ((exists x u, In x (st_seen st1) /\ tf (i_ch x) = Some [u] /\ u <= dl) -> t <= dl) /\
       (~ (exists x u, In x (st_seen st1) /\ tf (i_ch x) = Some [u] /\ u <= dl) ->
        forall x, In x (st_seen st1) -> exists u, tf (i_ch x) = Some [u] /\ t <= u)).
  { intros h (_ & T & O). exists (i_time h). split; [exact T|]. unfold ok in O. destruct (Z.leb_spec tm dl) as [Hd|Hd].
    - split; [intros _; exact O|]. intros Hno. exfalso. apply Hno, Hreach, Hd.
    - split; [intros Hy; apply Hreach in Hy; lia|]. intros _ x Hx. destruct (Hone x Hx) as (u & V & T'). exists u. split; [exact T'|]. rewrite O. apply (Hmin x u Hx V). }
  destruct (tm <=? dl) eqn:Ed.
  - (* second search *)
    destruct (front_update w [] pop) as [|h r] eqn:Eh; [discriminate|].
    set (pop' := if Nat.ltb (length pop) size then _ else _) in E2.
    assert (Hpop' : incl pop' pop).
    { unfold pop'. destruct (Nat.ltb _ _); [|intros x; exact (fun z => z)]. intros x Hx. apply in_app_or in Hx as [Hx|Hx]; [exact Hx|]. eapply Hch; eauto. }
    assert (Hin' : incl pop pop').
    { unfold pop'. destruct (Nat.ltb _ _); intros x Hx; [apply in_or_app; left|]; exact Hx. }
    assert (Hok : stage_ok w (timed tf fit ok) (Stage pop' (h :: r) (i_values h) (st_gen st1) pop)).
    { split; [exact F1|]. split; [exact F2|]. split; [exact Hpop'|]. split; [intros x Hx; apply P1, Hx|].
      split; [exists h, r; auto|]. intros x Hx. apply F3, Hpop', Hx. }
    assert (Hev : forall cs off, evaluate_in_time tf fit dl cs = Some off -> forall x, In x off -> timed tf fit ok x).
    { intros cs off Ho x Hx. assert (G := evaluate_in_time_spec tf fit Ht dl cs off Ho x Hx). destruct G as (G1 & G2 & G3). split; [exact G1|]. split; [exact G2|]. exact G3. }
    destruct (run_spec shuffle offspring timeout nsga2 false size Hsh Hn w _ _ (timed tf fit ok) Hsz2 Hev _ _ _ _ _ _ _ _ _ _ _ E2 Hok)
      as ((R1 & R2 & R3 & R4 & (h1 & r1 & E3 & _) & R6) & _ & _).
    split; [rewrite E3; discriminate|]. split; [intros x Hx; apply Hans, R4, R2, Hx|]. split; [exact Hinit|].
    split; [intros x Hx; apply (R4 x (R2 x Hx))|].
    split; [intros a b Ha Hb Hab; apply (incomparable_in w (st_hof st2)); auto; apply nw_no_worse; auto|].
    intros L x Hx.
    assert (KB : keeps_best w st2).
    { eapply (run_best shuffle offspring timeout nsga2 false size Hsh Hn w _ _ (timed tf fit ok) Hsz2 Hev L eq_refl Hsize); [exact E2|exact Hok|].
      destruct (select_best_keeps w 1 pop ltac:(lia)) as (z & Z1 & Z2); [intros E; rewrite E in Hm'; destruct Hm'|intros y Hy; apply Hsz2, P1, Hy|].
      assert (Hz : In z pop) by (apply (select_best_incl w 1), Z1).
      exists z. cbn [st_pop st_seen]. split; [apply Hin', Hz|]. intros y Hy. apply one_objective; [exact L|apply Hsz2, P1, Hz|apply Hsz2, P1, Hy|apply Z2, Hy]. }
    destruct KB as (z & Z1 & Z2). destruct (R6 z Z1) as (k & Hk1 & Hk2). exists k. split; [exact Hk1|].
    apply nw_no_worse; [apply Hsz2, R4, R2, Hk1|apply Hsz2, R4, Hx|]. eapply nw_trans; [exact Hk2|apply Z2, Hx].
  - injection E2 as <-. cbn [st_hof st_seen st_pop].
    split; [destruct (F3 m' Hm') as (k & Hk1 & _); intros E; rewrite E in Hk1; destruct Hk1|].
    split; [intros x Hx; apply Hans, P1; apply F2 in Hx; exact Hx|]. split; [exact Hinit|].
    split; [intros x Hx; apply F2 in Hx; apply (P1 x Hx)|].
    split; [intros a b Ha Hb Hab; apply (incomparable_in w (front_update w [] pop)); auto; apply nw_no_worse; auto; apply Hsz2, P1; [apply F2 in Ha; exact Ha|apply F2 in Hb; exact Hb]|].
    intros L x Hx. destruct (F3 x Hx) as (k & Hk1 & Hk2). exists k. split; [exact Hk1|]. apply nw_no_worse; [apply Hsz2, P1; apply F2 in Hk1; exact Hk1|apply Hsz2, P1, Hx|exact Hk2].
Qed.
Print Assumptions genetic_deadline.

(** ** A run meeting the hypotheses *)
(** Chromosomes are integers; two objectives, the number and its distance to 10, both to be
    minimized; a child is one less than its parent. *)
Definition gx_fit (c : Z) : option (list Z) := Some [c; Z.abs (10 - c)].
Definition gx_offspring (s g : nat) (optimize : bool) (cs : list Z) : option (list Z) := Some (map (fun c => c - 1) cs).
Definition gx_run := genetic_search (fun _ _ l => rev l) gx_offspring (fun _ _ => false) (fun _ _ l => l) true 3 [-1; -1] gx_fit false None 2 [12; 15; 4].
Example gx_run_ok : exists st, gx_run = Some st /\ map i_ch (st_hof st) = [2; 3; 4; 10] /\ length (st_seen st) = 12%nat.
Proof. eexists. split; [vm_compute; reflexivity|]. split; reflexivity. Qed.
Example genetic_front_example :
  exists st, gx_run = Some st /\ forall c v, In c [12; 15; 4] -> gx_fit c = Some v -> exists h, In h (st_hof st) /\ no_worse [-1; -1] (i_values h) v.
Proof.
  destruct gx_run_ok as (st & E & _). exists st. split; [exact E|].
  destruct (genetic_front Z (fun _ _ l => rev l) gx_offspring (fun _ _ => false) (fun _ _ l => l) true 3 [-1; -1] gx_fit false None 2 [12; 15; 4] st)
    as (_ & _ & _ & H & _); [intros; apply Permutation_sym, Permutation_rev|intros s g l x Hx; exact Hx|intros c v [= <-]; reflexivity|exact E|exact H].
Qed.
(** One objective: the distance to 10. *)
Definition gx_one (c : Z) : option (list Z) := Some [Z.abs (10 - c)].
Example genetic_best_of_all_example :
  exists st h, genetic_search (fun _ _ l => rev l) gx_offspring (fun _ _ => false) (fun _ _ l => l) false 3 [-1] gx_one false (Some 2%nat) 9 [13; 15; 4] = Some st /\
    st_hof st = [h] /\ i_ch h = 10 /\ forall x, In x (st_seen st) -> exists u, gx_one (i_ch x) = Some [u] /\ -1 * u <= -1 * 0.
Proof.
  destruct (genetic_search (fun _ _ l => rev l) gx_offspring (fun _ _ => false) (fun _ _ l => l) false 3 [-1] gx_one false (Some 2%nat) 9 [13; 15; 4]) as [st|] eqn:E;
    [|vm_compute in E; discriminate].
  destruct (genetic_best_of_all Z (fun _ _ l => rev l) gx_offspring (fun _ _ => false) (fun _ _ l => l) 3 (-1) gx_one false (Some 2%nat) 9 [13; 15; 4] st)
    as (h & v & H1 & H2 & _ & H3); [intros; apply Permutation_sym, Permutation_rev|intros s g l x Hx; exact Hx|intros c v [= <-]; reflexivity|lia|exact E|].
  assert (Hh : i_ch h = 10) by (vm_compute in E; injection E as <-; cbn [st_hof] in H1; injection H1 as <-; reflexivity).
  rewrite Hh in H2. vm_compute in H2. injection H2 as <-. exists st, h. auto.
Qed.
(** A deadline: the number is the time, the distance to 10 the fitness; the deadline 11 is
    not met by the first population but by its offspring, the deadline 1 never. *)
Definition gx_time (c : Z) : option (list Z) := Some [c].
Definition gx_deadline (deadline : Z) := genetic_search_deadline (fun _ _ l => rev l) gx_offspring (fun _ _ => false) (fun _ _ l => l)
  (fun l k => firstn k l) false 3 [-1] gx_time gx_one deadline false None 4 [13; 15; 14].
Example gx_deadline_met : exists st1 st2, gx_deadline 11 = Some (st1, st2) /\ map i_ch (st_hof st2) = [10] /\ map i_time (st_hof st2) = [10].
Proof. eexists. eexists. split; [vm_compute; reflexivity|]. split; reflexivity. Qed.
Example gx_deadline_missed : exists st1 st2, gx_deadline 1 = Some (st1, st2) /\ map i_ch (st_hof st2) = [11].
Proof. eexists. eexists. split; [vm_compute; reflexivity|]. reflexivity. Qed.
Example genetic_deadline_example : exists st1 st2 h, gx_deadline 11 = Some (st1, st2) /\ In h (st_hof st2) /\ exists t, gx_time (i_ch h) = Some [t] /\ t <= 11.
Proof.
  destruct gx_deadline_met as (st1 & st2 & E & Eh & _).
  destruct (genetic_deadline Z (fun _ _ l => rev l) gx_offspring (fun _ _ => false) (fun _ _ l => l) (fun l k => firstn k l) 3 [-1] gx_time gx_one 11 false None 4 [13; 15; 14] st1 st2)
    as (_ & H & _); [intros; apply Permutation_sym, Permutation_rev|intros s g l x Hx; exact Hx|intros l k x Hx; rewrite <- (firstn_skipn k l); apply in_or_app; left; exact Hx|lia|
      intros c v [= <-]; reflexivity|intros c v [= <-]; reflexivity|exact E|].
  destruct (st_hof st2) as [|h r] eqn:Es; [discriminate|]. exists st1, st2, h. split; [exact E|]. split; [rewrite Es; left; reflexivity|].
  destruct (H h (or_introl eq_refl)) as (t & T1 & T2 & _). exists t. split; [exact T1|]. apply T2.
  assert (Hx : exists x, In x (st_seen st1) /\ i_ch x = 11).
  { revert E. vm_compute. intros [= <- _]. cbn [st_seen]. exists (Ind 11 [11] 0). split; [simpl; tauto|reflexivity]. }
  destruct Hx as (x & Hx & Ex). exists x, 11. rewrite Ex. split; [exact Hx|]. split; [reflexivity|lia].
Qed.
