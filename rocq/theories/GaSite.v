(** The genetic scheduler on a site: individuals and their decodings. *)
From Coq Require Import ZArith List Bool Lia Arith Relations Permutation ZifyBool ZifyNat.
From Verif Require Import TimeModel MomentumModel JITModel MomentumSpec GraphModel ScheduleModel ScheduleSpec TeamProofs ScheduleInv ScheduleTheorems LftLoop Digraph TopoModel TopoProofs
  TraverseModel ValidationModel OrderModel HeadModel HeadProofs HeadTheorems GeneticModel GeneticResModel GeneticResTheorems
  PriorityModel PipelineModel PipelineTheorems SgsModel SgsSpec SgsParallelTheorems GaModel GaProofs GaTheorems GaSchedModel GaSchedSpec GaSchedProofs GaSchedSerial GaSchedTheorems GaSchedParallel.
Import ListNotations.
Local Open Scope Z_scope.

(** ** What is answered was valid, if there is an answer *)
Section Search.
  Context {C : Type}.
  Notation ind := (individual C).
  Variable shuffle : nat -> nat -> list ind -> list ind.
  Variable offspring : nat -> nat -> bool -> list C -> option (list C).
  Variable timeout : nat -> nat -> bool.
  Variable nsga2 : nat -> nat -> list ind -> list ind.
  Variable multi : bool.
  Variable size : nat.
  Hypothesis shuffle_ok : forall s g l, Permutation (shuffle s g l) l.
  Hypothesis nsga2_ok : forall s g l, incl (nsga2 s g l) l.
  Variable w : list Z.
  Variable ok : C -> Prop.
  Variable opt : bool.
  Hypothesis offspring_ok : forall s g cs cs', Forall ok cs -> offspring s g opt cs = Some cs' -> Forall ok cs'.
  Let okind (x : ind) : Prop := ok (i_ch x).

  Lemma run_ok (eval : list C -> option (list ind)) enough :
    (forall cs off, eval cs = Some off -> forall x, In x off -> In (i_ch x) cs) ->
    forall left mp s gen pl pop hof best seen st,
    generations shuffle offspring timeout nsga2 multi size w eval enough opt mp s left gen pl pop hof best seen = Some st ->
    Forall okind pop -> Forall okind seen -> Forall okind (st_seen st).
  Proof.
    intros Hev. induction left as [|left IH]; intros mp s gen pl pop hof best seen st H Hp Hs; cbn [generations] in H; [injection H as <-; exact Hs|].
    destruct (_ && _) in H; [|injection H as <-; exact Hs]. cbv zeta in H.
    destruct (offspring s gen opt _) as [cs|] eqn:Eo; [|discriminate]. destruct (eval cs) as [off|] eqn:Ee; [|discriminate].
    assert (Hp1 : Forall okind (shuffle s gen pop)).
    { rewrite Forall_forall in *. intros x Hx. apply Hp. apply (Permutation_in _ (shuffle_ok s gen pop)). exact Hx. }
    assert (Hcs : Forall ok cs).
    { eapply offspring_ok; [|exact Eo]. rewrite Forall_forall in *. intros c Hc. apply in_map_iff in Hc as (x & <- & Hx). apply Hp1, Hx. }
    assert (Hoff : Forall okind off) by (rewrite Forall_forall in *; intros x Hx; apply Hcs, (Hev _ _ Ee), Hx).
    assert (Hs' : Forall okind (seen ++ off)) by (apply Forall_app; auto).
    assert (Hp2 : Forall okind (select nsga2 multi size w s gen (shuffle s gen pop ++ off))).
    { assert (Ha : Forall okind (shuffle s gen pop ++ off)) by (apply Forall_app; auto). rewrite Forall_forall in *. intros x Hx. apply Ha.
      unfold select in Hx. destruct multi; [apply nsga2_ok in Hx; exact Hx|apply select_best_incl in Hx; exact Hx]. }
    destruct (front_update _ _ _) as [|h r]; [discriminate|].
    destruct (enough _ _); [injection H as <-; exact Hs'|]. eapply IH; eauto.
  Qed.
  Variable fit : C -> option (list Z).
  Hypothesis fit_sized : forall c v, fit c = Some v -> length v = length w.
  Lemma search_ok mp number init st : Forall ok init ->
    genetic_search shuffle offspring timeout nsga2 multi size w fit opt mp number init = Some st ->
    st_hof st <> [] /\ forall h, In h (st_hof st) -> ok (i_ch h).
  Proof.
    intros Hi H. destruct (first_stage_spec shuffle offspring timeout nsga2 multi size shuffle_ok nsga2_ok w fit fit_sized _ _ _ _ _ _ H) as ((A1 & A2 & A3 & A4 & (h0 & r0 & E0 & _) & A6) & _).
    assert (Hseen : Forall okind (st_seen st)).
    { unfold genetic_search, first_stage in H. destruct (evaluate fit init) as [pop|] eqn:Ee; [|discriminate]. cbv zeta in H.
      destruct (front_update w [] pop) as [|h r]; [discriminate|].
      assert (Hpop : Forall okind pop).
      { rewrite Forall_forall in *. intros x Hx. destruct (evaluate_spec fit init pop Ee) as [E1 _]. apply Hi, E1, Hx. }
      eapply run_ok; [|exact H|exact Hpop|exact Hpop].
      intros cs off Ho x Hx. destruct (evaluate_spec fit cs off Ho) as [E1 _]. apply E1, Hx. }
    split; [rewrite E0; discriminate|]. rewrite Forall_forall in Hseen. intros h Hh. apply Hseen, A2, Hh.
  Qed.
End Search.

Section Answers.
  Variable g : graph.
  Variable works : list nat.
  Variable est : nat -> list worker -> Z.
  Variable cs : list contractor.
  Variable spec : nat -> work_spec.
  Variable prio : nat -> Z.
  Variable apt : Z.
  Variable opt : bool.
  Variable tb : toolbox.
  Hypothesis Hin : genetic_inputs g works est cs spec apt opt.
  Hypothesis Hp : prepare g works cs spec prio = Some tb.
  Let Hg := gi_graph _ _ _ _ _ _ _ Hin.
  Let Htb := prepare_ok _ _ _ _ _ _ Hg Hp.
  Variable decode : chromosome -> option sched.

  Lemma answers_valid listing shuffle draw timeout nsga2 multi size weights fitness worst mp number init answers :
    (forall s k l, Permutation (shuffle s k l) l) -> (forall s k l, incl (nsga2 s k l) l) -> (forall s k, draws_ok (draw s k)) ->
    (forall rows, length (fitness rows) = length weights) -> length worst = length weights ->
    Forall (individual_ok g cs spec prio (tb_nodes tb) (tb_cborders tb) opt) init ->
    genetic_schedules g cs tb decode listing shuffle draw timeout nsga2 multi size weights fitness worst opt mp number init = Some answers ->
    answers <> [] /\ forall ch sd, In (ch, sd) answers -> valid g spec tb opt ch /\ decode ch = Some sd.
  Proof.
    intros Hs Hn Hd Hf Hw Hi H. destruct (inputs_parts _ _ _ _ _ _ _ Hin) as (_ & _ & H3 & _). unfold genetic_schedules in H.
    set (fit := evaluate_with g cs tb decode listing fitness worst) in *.
    destruct (genetic_search _ _ _ _ _ _ _ _ _ _ _ _) as [st|] eqn:Es; [|discriminate].
    destruct (search_ok shuffle (fun s gen o pop => make_offspring tb (draw s gen) o pop) timeout nsga2 multi size Hs Hn weights (valid g spec tb opt) opt) with
      (fit := fit) (mp := mp) (number := number) (init := init) (st := st) as [S1 S2].
    - intros s k l l' V E. destruct (make_offspring_valid g works cs spec prio tb Htb H3 (nodes_nonempty g works est cs spec prio apt opt tb Hin Hp) (draw s k) opt l (Hd s k) V) as (l2 & E2 & V2 & _). congruence.
    - intros c v. unfold fit, evaluate_with. destruct (validate cs tb c); [|intros [= <-]; exact Hw].
      destruct (decode c) as [sd|]; [|discriminate]. destruct (schedule_rows listing g (rev sd)) as [rows|]; [|discriminate]. intros [= <-]. apply Hf.
    - eapply Forall_impl; [|exact Hi]. intros ch. apply (ok_valid g works est cs spec prio apt opt tb Hin Hp).
    - exact Es.
    - assert (Fa := sequence_spec _ _ _ H).
      assert (Fb : Forall2 (fun h a => i_ch h = fst a /\ decode (fst a) = Some (snd a)) (st_hof st) answers).
      { clear -Fa. induction Fa as [|h [c sd] hs l Hd _ IH]; constructor; [|exact IH].
        destruct (decode (i_ch h)) as [sd'|] eqn:Ed; [|discriminate]. injection Hd as <- <-. auto. }
      split; [intros ->; inversion Fb as [Eq|]; symmetry in Eq; contradiction|].
      intros ch sd Ha. destruct (forall2_right _ _ _ _ Fb Ha) as (h & Hh & E1 & E2). cbn [fst snd] in *. subst ch. auto.
  Qed.
  (** no decoding, no answer *)
  Lemma undecodable listing shuffle draw timeout nsga2 multi size weights fitness worst mp number init :
    init <> [] -> Forall (individual_ok g cs spec prio (tb_nodes tb) (tb_cborders tb) opt) init ->
    (forall ch, valid g spec tb opt ch -> decode ch = None) ->
    genetic_schedules g cs tb decode listing shuffle draw timeout nsga2 multi size weights fitness worst opt mp number init = None.
  Proof.
    intros Hne Hi Hdec. unfold genetic_schedules, genetic_search, first_stage, evaluate.
    destruct init as [|c l]; [congruence|]. inversion Hi as [|? ? Hc Hl]; subst. apply (ok_valid g works est cs spec prio apt opt tb Hin Hp) in Hc.
    cbn [map sequence]. unfold evaluate_with. rewrite (valid_validate g works est cs spec prio apt opt tb Hin Htb c Hc), (Hdec c Hc). reflexivity.
  Qed.
  (** the search only sees decodings of valid individuals *)
End Answers.
