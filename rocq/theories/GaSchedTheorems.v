(** Properties C67, C68, C69: the genetic scheduler, serial scheme, without deadline.
    Vocabulary: [GaSchedSpec], [PipelineTheorems], and [genetic_inputs], [lags_respected] of
    [GaSchedSerial]. *)
From Coq Require Import ZArith List Bool Lia Arith Relations Permutation Sorted ZifyBool ZifyNat.
From Verif Require Import TimeModel MomentumModel JITModel MomentumSpec GraphModel ScheduleModel ScheduleSpec TeamProofs ScheduleInv ScheduleTheorems Digraph TopoModel TopoProofs TopoTheorems
  TraverseModel ValidationModel OrderModel OrderTheorems HeadModel HeadProofs HeadTheorems GeneticModel GeneticProofs GeneticTheorems GeneticResModel GeneticResTheorems
  PriorityModel PriorityProofs PriorityTheorems PipelineModel PipelineTheorems SgsModel SgsSpec SgsSerial SgsRound SgsTheorems GaModel GaProofs GaTheorems GaSchedModel GaSchedSpec GaSchedProofs GaSchedSerial.
Import ListNotations.
Local Open Scope Z_scope.

(** C67. Crossover and mutation, applied to individuals, never raise and produce
    individuals, as many as there are whole pairs. *)
Theorem genetic_offspring_valid :
  forall g works cs spec prio tb d optimize pop,
    graph_ok g works -> works <> [] -> (forall n, reqs_ok (reqs_of g n)) ->
    prepare g works cs spec prio = Some tb -> draws_ok d ->
    Forall (individual_ok g cs spec prio (tb_nodes tb) (tb_cborders tb) optimize) pop ->
    exists children, make_offspring tb d optimize pop = Some children /\
      Forall (individual_ok g cs spec prio (tb_nodes tb) (tb_cborders tb) optimize) children /\
      length children = (2 * (length pop / 2))%nat.
Proof.
  intros g works cs spec prio tb d opt pop Hg Hne Hr Hp Hd Hpop. assert (Htb := prepare_ok _ _ _ _ _ _ Hg Hp).
  destruct (make_offspring_valid g works cs spec prio tb Htb Hr) with (d := d) (opt := opt) (pop := pop) as (l & E & V & L).
  - intros E. destruct works as [|x ws]; [congruence|].
    destruct (has_head g (graph_chains g _ Hg) _ (gk_closed _ _ Hg) x (or_introl eq_refl)) as (h & Hh & _).
    apply (to_heads _ _ _ _ _ _ Htb) in Hh. rewrite E in Hh. destruct Hh.
  - exact Hd.
  - eapply Forall_impl; [|exact Hpop]. intros ch. apply (valid_iff g works cs spec prio tb Htb Hr).
  - exists l. split; [exact E|]. split; [|exact L]. eapply Forall_impl; [|exact V]. intros ch. apply (valid_iff g works cs spec prio tb Htb Hr).
Qed.
Print Assumptions genetic_offspring_valid.

(** What the toolbox holds: the chains in a topological order, and the workforces. *)
Theorem genetic_toolbox :
  forall g works cs spec prio tb,
    graph_ok g works -> contractors_ok cs -> same_profession_order cs -> prepare g works cs spec prio = Some tb ->
    NoDup (tb_nodes tb) /\ (forall h, In h (tb_nodes tb) <-> is_head g works h) /\ topological (prerequisite g) (tb_nodes tb) /\
    (forall ci c j k b, nth_error cs ci = Some c -> nth_error (worker_names cs) j = Some k ->
       (exists row, nth_error (tb_cborders tb) ci = Some row /\ nth_error row j = Some b) <->
       (In (k, b) (ct_workers c) \/ b = 0 /\ ~ In k (map fst (ct_workers c)))).
Proof.
  intros g works cs spec prio tb Hg Hcs Ho Hp. assert (Htb := prepare_ok _ _ _ _ _ _ Hg Hp).
  split; [apply Htb|]. split; [apply Htb|]. split; [apply Htb|]. intros ci c j k b Hc Hj. assert (Ecb := to_cborders _ _ _ _ _ _ Htb). split.
  - intros (row & Hr & Hb). exact (borders_cells cs _ ci c row j k b Ecb Ho Hc Hr Hj Hb).
  - assert (Hex : exists row x, nth_error (tb_cborders tb) ci = Some row /\ nth_error row j = Some x).
    { destruct (cborders_shaped g works cs spec prio tb Htb) as [Hsh Hlen].
      destruct (nth_error (tb_cborders tb) ci) as [row|] eqn:Er; [|apply nth_error_None in Er; apply nth_lt in Hc; lia].
      exists row. destruct (nth_error row j) as [x|] eqn:Ex; [eauto|]. apply nth_error_None in Ex. rewrite (Hsh row (nth_error_In _ _ Er)) in Ex. apply nth_lt in Hj. lia. }
    destruct Hex as (row & x & Hr & Hx). assert (D := borders_cells cs _ ci c row j k x Ecb Ho Hc Hr Hj Hx).
    intros G. exists row. split; [exact Hr|]. rewrite Hx. f_equal. destruct Hcs as [_ Hcs]. destruct (Hcs c (nth_error_In _ _ Hc)) as [Hnd _].
    destruct D as [D|[-> D]], G as [G|[-> G]].
    + exact (LftLoop.nodup_fst_unique _ _ _ _ Hnd D G).
    + exfalso. apply G. apply in_map_iff. exists (k, x). auto.
    + exfalso. apply D. apply in_map_iff. exists (k, b). auto.
    + reflexivity.
Qed.
Print Assumptions genetic_toolbox.

(** ** The search never raises *)
Section Total.
  Context {C : Type}.
  Notation ind := (individual C).
  Variable shuffle : nat -> nat -> list ind -> list ind.
  Variable offspring : nat -> nat -> bool -> list C -> option (list C).
  Variable timeout : nat -> nat -> bool.
  Variable nsga2 : nat -> nat -> list ind -> list ind.
  Variable multi : bool.
  Variable size : nat.
  Hypothesis shuffle_ok : forall s g l, Permutation (shuffle s g l) l.
  Hypothesis nsga2_ok : forall s g l, incl (nsga2 s g l) l.
  Variable w : list Z.
  Variable fit : C -> option (list Z).
  Hypothesis fit_sized : forall c v, fit c = Some v -> length v = length w.
  Variable valid : C -> Prop.
  Variable opt : bool.
  Hypothesis offspring_ok : forall s g cs, Forall valid cs -> exists cs', offspring s g opt cs = Some cs' /\ Forall valid cs'.
  Hypothesis fit_ok : forall c, valid c -> exists v, fit c = Some v.
  Let good (x : ind) : Prop := fit (i_ch x) = Some (i_values x) /\ valid (i_ch x).
  Lemma evaluate_total cs : Forall valid cs -> exists pop, evaluate fit cs = Some pop /\ (forall x, In x pop -> good x) /\
    forall c, In c cs -> exists x, In x pop /\ i_ch x = c.
  Proof.
    intros V. rewrite Forall_forall in V. unfold evaluate.
    destruct (sequence_total (fun c => match fit c with Some v => Some (Ind c v 0) | None => None end) cs) as [pop E].
    { intros c Hc. destruct (fit_ok c (V c Hc)) as [v ->]. eauto. }
    exists pop. split; [exact E|]. destruct (evaluate_spec fit cs pop E) as [E1 E2]. split; [|exact E2].
    intros x Hx. destruct (E1 x Hx) as [M I]. split; [exact M|apply V, I].
  Qed.
  Lemma search_total enough mp number init : Forall valid init -> init <> [] ->
    exists st, first_stage shuffle offspring timeout nsga2 multi size w fit enough opt mp number init = Some st /\
      (forall x, In x (st_seen st) -> good x) /\ incl (st_hof st) (st_seen st) /\ st_hof st <> [].
  Proof.
    intros V Hne. unfold first_stage. destruct (evaluate_total init V) as (pop & -> & Hp & Hi). cbv zeta.
    assert (Hsz : forall x, good x -> sized w x) by (intros x [H _]; exact (fit_sized _ _ H)).
    destruct (front_update_spec w pop []) as (F1 & F2 & F3); [constructor|intros h []|intros x Hx; apply Hsz, Hp, Hx|].
    destruct (front_update w [] pop) as [|h r] eqn:Eh.
    { exfalso. destruct init as [|c l]; [congruence|]. destruct (Hi c (or_introl eq_refl)) as (x & Hx & _). destruct (F3 x Hx) as (h & [] & _). }
    assert (Hok : stage_ok w good (Stage pop (h :: r) (i_values h) 1 pop)).
    { split; [exact F1|]. split; [exact F2|]. split; [intros x; exact (fun z => z)|]. split; [exact Hp|].
      split; [exists h, r; auto|exact F3]. }
    destruct (run_total shuffle offspring timeout nsga2 multi size shuffle_ok nsga2_ok (fun o c => valid c) w (evaluate fit) enough good opt Hsz
      (fun x Hx => proj2 Hx) offspring_ok) with (left := number) (mp := match mp with Some m => m | None => number end) (s := 1%nat) (gen := 1%nat) (pl := 0%nat)
      (pop := pop) (hof := h :: r) (best := i_values h) (seen := pop) as (st & E & (A1 & A2 & A3 & A4 & (h' & r' & E' & _) & A6)).
    - intros cs Hc. destruct (evaluate_total cs Hc) as (off & E1 & E2 & _). eauto.
    - exact Hok.
    - exists st. split; [exact E|]. split; [exact A4|]. split; [exact A2|]. rewrite E'. discriminate.
  Qed.
End Total.

(** ** The scheduler *)
Definition serial (g : graph) (est : nat -> list worker -> Z) (cs : list contractor) (tb : toolbox) (apt : Z) (ch : chromosome) : option sched :=
  match serial_decode g est (worker_names cs) cs (tb_nodes tb) ch apt with Some (sd, _) => Some sd | None => None end.

Section Answers.
  Variable g : graph.
  Variable works : list nat.
  Variable est : nat -> list worker -> Z.
  Variable cs : list contractor.
  Variable spec : nat -> work_spec.
  Variable prio : nat -> Z.
  Variable apt : Z.
  Variable opt : bool.
  Variable tb : toolbox.
  Variable listing : list nat -> list nat.
  Hypothesis Hin : genetic_inputs g works est cs spec apt opt.
  Hypothesis Hp : prepare g works cs spec prio = Some tb.
  Hypothesis Hlist : forall l, Permutation (listing l) l.
  Let Hg := gi_graph _ _ _ _ _ _ _ Hin.
  Let Htb := prepare_ok _ _ _ _ _ _ Hg Hp.
  (** whatever the scheme of decoding *)
  Variable decode : chromosome -> option sched.
  Variable good : sched -> Prop.
  Hypothesis good_works : forall sd, good sd -> Permutation (map fst sd) works.
  Hypothesis decode_ok : forall ch, valid g spec tb opt ch -> exists sd, decode ch = Some sd /\ good sd.
  Notation individual_ok := (individual_ok g cs spec prio (tb_nodes tb) (tb_cborders tb) opt).

  Lemma ok_valid ch : individual_ok ch <-> valid g spec tb opt ch.
  Proof. destruct (inputs_parts _ _ _ _ _ _ _ Hin) as (_ & _ & H3 & _). apply (valid_iff g works cs spec prio tb Htb H3). Qed.
  Lemma nodes_nonempty : tb_nodes tb <> [].
  Proof.
    intros E. assert (Hs := gi_some _ _ _ _ _ _ _ Hin). assert (Hx : exists x, In x works) by (clear - Hs; destruct works as [|x l]; [congruence|exists x; left; reflexivity]).
    destruct Hx as [x Hx]. destruct (has_head g (graph_chains g _ Hg) _ (gk_closed _ _ Hg) x Hx) as (h & Hh & _).
    apply (to_heads _ _ _ _ _ _ Htb) in Hh. rewrite E in Hh. destruct Hh.
  Qed.
  Lemma good_nodup sd : good sd -> NoDup (map fst (rev sd)).
  Proof.
    intros F. rewrite map_rev. eapply Permutation_NoDup; [apply Permutation_rev|].
    eapply Permutation_NoDup; [apply Permutation_sym, (good_works _ F)|apply (gk_nodup _ _ Hg)].
  Qed.
  Lemma evaluate_ok fitness worst ch : valid g spec tb opt ch ->
    exists sd rows, decode ch = Some sd /\ good sd /\
      schedule_rows listing g (rev sd) = Ends rows /\ evaluate_with g cs tb decode listing fitness worst ch = Some (fitness rows).
  Proof.
    intros V. destruct (decode_ok ch V) as (sd & E & F). unfold evaluate_with.
    rewrite (valid_validate g works est cs spec prio apt opt tb Hin Htb ch V), E.
    destruct (rows_ordered listing g (rev sd) Hlist (gk_acyclic _ _ Hg) (good_nodup sd F)) as (rows & Er & _). rewrite Er.
    exists sd, rows. auto.
  Qed.

  Variable shuffle : nat -> nat -> list (individual chromosome) -> list (individual chromosome).
  Variable draw : nat -> nat -> draws.
  Variable timeout : nat -> nat -> bool.
  Variable nsga2 : nat -> nat -> list (individual chromosome) -> list (individual chromosome).
  Hypothesis shuffle_ok : forall s k l, Permutation (shuffle s k l) l.
  Hypothesis nsga2_ok : forall s k l, incl (nsga2 s k l) l.
  Hypothesis draw_ok : forall s k, draws_ok (draw s k).
  Lemma answers_ok multi size weights fitness worst mp number init :
    (forall rows, length (fitness rows) = length weights) -> length worst = length weights ->
    init <> [] -> Forall individual_ok init ->
    exists st answers,
      genetic_search shuffle (fun s gen o pop => make_offspring tb (draw s gen) o pop) timeout nsga2 multi size weights
          (evaluate_with g cs tb decode listing fitness worst) opt mp number init = Some st /\
      genetic_schedules g cs tb decode listing shuffle draw timeout nsga2 multi size weights fitness worst opt mp number init = Some answers /\
      answers <> [] /\ Forall2 (fun h a => i_ch h = fst a /\ decode (fst a) = Some (snd a)) (st_hof st) answers /\
      forall ch sd, In (ch, sd) answers -> individual_ok ch /\ good sd.
  Proof.
    intros Hf Hw Hne Hi. destruct (inputs_parts _ _ _ _ _ _ _ Hin) as (_ & _ & H3 & _).
    set (fit := evaluate_with g cs tb decode listing fitness worst).
    destruct (search_total shuffle (fun s gen o pop => make_offspring tb (draw s gen) o pop) timeout nsga2 multi size shuffle_ok nsga2_ok weights fit) with
      (valid := valid g spec tb opt) (opt := opt) (enough := fun (_ : list Z) (_ : list (individual chromosome)) => false) (mp := mp) (number := number) (init := init)
      as (st & E & S1 & S2 & S3).
    - intros c v. unfold fit, evaluate_with. destruct (validate cs tb c); [|intros [= <-]; exact Hw].
      destruct (decode c) as [sd|]; [|discriminate]. destruct (schedule_rows listing g (rev sd)) as [rows|]; [|discriminate]. intros [= <-]. apply Hf.
    - intros s k l V. destruct (make_offspring_valid g works cs spec prio tb Htb H3 nodes_nonempty (draw s k) opt l (draw_ok s k) V) as (l' & E' & V' & _). eauto.
    - intros c V. destruct (evaluate_ok fitness worst c V) as (sd & rows & _ & _ & _ & E'). eauto.
    - eapply Forall_impl; [|exact Hi]. intros ch. apply ok_valid.
    - exact Hne.
    - unfold genetic_schedules. fold fit. assert (E' : genetic_search shuffle (fun s gen o pop => make_offspring tb (draw s gen) o pop) timeout nsga2 multi size weights
          fit opt mp number init = Some st) by exact E. rewrite E'.
      destruct (sequence_total (fun h => match decode (i_ch h) with Some sd => Some (i_ch h, sd) | None => None end) (st_hof st)) as [answers Ea].
      { intros h Hh. destruct (S1 h (S2 h Hh)) as [_ V]. destruct (decode_ok _ V) as (sd & -> & _). eauto. }
      exists st, answers. split; [reflexivity|]. split; [exact Ea|]. assert (Fa := sequence_spec _ _ _ Ea).
      assert (Fb : Forall2 (fun h a => i_ch h = fst a /\ decode (fst a) = Some (snd a)) (st_hof st) answers).
      { clear -Fa. induction Fa as [|h [c sd] hs l Hd _ IH]; constructor; [|exact IH].
        destruct (decode (i_ch h)) as [sd'|] eqn:Ed; [|discriminate]. injection Hd as <- <-. auto. }
      split; [intros ->; inversion Fb as [Eq|]; symmetry in Eq; contradiction|]. split; [exact Fb|].
      intros ch sd Ha. destruct (forall2_right _ _ _ _ Fb Ha) as (h & Hh & E1 & E2). cbn [fst snd] in *. subst ch.
      destruct (S1 h (S2 h Hh)) as [_ V]. split; [apply ok_valid; exact V|]. destruct (decode_ok _ V) as (sd' & Ed & F). rewrite Ed in E2. injection E2 as <-. exact F.
  Qed.
End Answers.

(** C68. Started from individuals, the genetic scheduler never raises; every schedule it
    answers is feasible and comes from an individual, for every fitness function. *)
Theorem genetic_schedules_feasible :
  forall g works est cs spec prio apt optimize tb listing shuffle draw timeout nsga2 multi size weights fitness worst max_plateau number init,
    genetic_inputs g works est cs spec apt optimize -> prepare g works cs spec prio = Some tb ->
    (forall l, Permutation (listing l) l) -> (forall s k l, Permutation (shuffle s k l) l) -> (forall s k l, incl (nsga2 s k l) l) ->
    (forall s k, draws_ok (draw s k)) ->
    (forall rows, length (fitness rows) = length weights) -> length worst = length weights ->
    init <> [] -> Forall (individual_ok g cs spec prio (tb_nodes tb) (tb_cborders tb) optimize) init ->
    exists answers, genetic_schedules g cs tb (serial g est cs tb apt) listing shuffle draw timeout nsga2 multi size weights fitness worst
                      optimize max_plateau number init = Some answers /\ answers <> [] /\
      forall ch sd, In (ch, sd) answers ->
        individual_ok g cs spec prio (tb_nodes tb) (tb_cborders tb) optimize ch /\
        feasible g cs spec works sd /\ lags_respected g works sd.
Proof.
  intros g works est cs spec prio apt opt tb listing shuffle draw timeout nsga2 multi size weights fitness worst mp number init Hin Hp Hl Hs Hn Hd Hf Hw Hne Hi.
  assert (Htb := prepare_ok _ _ _ _ _ _ (gi_graph _ _ _ _ _ _ _ Hin) Hp).
  destruct (answers_ok g works est cs spec prio apt opt tb listing Hin Hp Hl (serial g est cs tb apt)
    (fun sd => feasible g cs spec works sd /\ lags_respected g works sd)) with (shuffle := shuffle) (draw := draw) (timeout := timeout) (nsga2 := nsga2)
    (multi := multi) (size := size) (weights := weights) (fitness := fitness) (worst := worst) (mp := mp) (number := number) (init := init)
    as (st & answers & _ & E & A1 & _ & A2); try assumption; [intros sd [F _]; apply (fs_works _ _ _ _ _ F)| |eauto].
  intros ch V. destruct (serial_ok g works est cs spec prio apt opt tb Hin Htb ch V) as (sd & start & E & F & L). exists sd. unfold serial. rewrite E. auto.
Qed.
Print Assumptions genetic_schedules_feasible.

(** ** Encoding a schedule *)
Lemma idle_contractor cs sp : cs <> [] -> (forall id, In id (sp_contractors sp) -> In id (map ct_id cs)) ->
  exists ci c, encode_contractor cs sp = Some ci /\ nth_error cs ci = Some c /\ (sp_contractors sp = [] \/ In (ct_id c) (sp_contractors sp)).
Proof.
  intros Hne Hids. unfold encode_contractor.
  assert (Hhd : exists id l, (match sp_contractors sp with [] => map ct_id cs | l => l end) = id :: l /\ In id (map ct_id cs) /\
            (sp_contractors sp = [] \/ In id (sp_contractors sp))).
  { destruct (sp_contractors sp) as [|id l] eqn:El.
    - destruct cs as [|c0 cs0]; [congruence|]. exists (ct_id c0), (map ct_id cs0). simpl. auto.
    - exists id, l. split; [reflexivity|]. split; [apply Hids; left; reflexivity|right; left; reflexivity]. }
  destruct Hhd as (id & l & -> & Hid & Hal). destruct (index_of_in _ _ Hid) as [ci Hci]. rewrite Hci.
  destruct (nth_map_id _ _ _ (index_of_nth _ _ _ Hci)) as (c & Hc & Eid). exists ci, c. rewrite Eid. auto.
Qed.

(** A feasible schedule of works without fixed counts can be encoded, and the result is an
    individual. *)
Theorem feasible_schedule_encodes :
  forall g works cs spec prio tb optimize sd heads,
    graph_ok g works -> contractors_ok cs -> cs <> [] -> same_profession_order cs -> (forall n, reqs_ok (reqs_of g n)) ->
    (forall n, sp_workers (spec n) = []) -> prepare g works cs spec prio = Some tb ->
    feasible g cs spec works sd ->
    Permutation heads (tb_nodes tb) -> topological (prerequisite g) heads -> topological (fun x y => prio x < prio y) heads ->
    exists ch, encode (worker_names cs) cs (tb_nodes tb) (tb_cborders tb) spec sd heads = Some ch /\
      individual_ok g cs spec prio (tb_nodes tb) (tb_cborders tb) optimize ch.
Proof.
  intros g works cs spec prio tb opt sd heads Hg Hcs Hne Hso Hr Hsw Hp F P T1 T2.
  assert (Htb := prepare_ok _ _ _ _ _ _ Hg Hp). set (nodes := tb_nodes tb) in *. set (names := worker_names cs).
  assert (Hnn : NoDup nodes) by apply Htb. assert (Hnh : NoDup heads) by (eapply Permutation_NoDup; [apply Permutation_sym; exact P|exact Hnn]).
  assert (Hhd : forall n, In n heads -> is_head g works n) by (intros n Hn; apply (to_heads _ _ _ _ _ _ Htb); eapply Permutation_in; eauto).
  assert (Hnd : NoDup (map fst sd)) by (eapply Permutation_NoDup; [apply Permutation_sym, (fs_works _ _ _ _ _ F)|apply (gk_nodup _ _ Hg)]).
  destruct (cborders_shaped g works cs spec prio tb Htb) as [Hsh Hlb].
  (* the row of a head *)
  assert (Hrow : forall n, In n heads -> exists amounts ci, row_for names cs spec sd n (amounts, ci) /\
      exists c border, nth_error cs ci = Some c /\ nth_error (tb_cborders tb) ci = Some border /\
        (sp_contractors (spec n) = [] \/ In (ct_id c) (sp_contractors (spec n))) /\
        at_positions names amounts border (fun k a b => a <= b /\
          (forall r, In r (u_reqs (g_unit g n)) -> r_kind r = k -> r_min r <= a <= r_max r) /\
          (~ In k (map r_kind (u_reqs (g_unit g n))) -> a = 0))).
  { intros n Hn. assert (Hh := Hhd n Hn).
    assert (Hin : In n (map fst sd)) by (eapply Permutation_in; [apply Permutation_sym, (fs_works _ _ _ _ _ F)|apply Hh]).
    apply in_map_iff in Hin as ([m w] & Em & Hw). simpl in Em. subst m.
    destruct (fs_teams _ _ _ _ _ F n n w Hh (rt_refl _ _ n) Hw) as (ct & S1 & S2 & S3 & S4).
    apply (sd_get_in _ _ _ Hnd) in Hw.
    assert (Hrow : forall ci c, nth_error cs ci = Some c -> exists border, nth_error (tb_cborders tb) ci = Some border /\ length border = length names).
    { intros ci c Hc. destruct (nth_error (tb_cborders tb) ci) as [b|] eqn:Eb; [|apply nth_error_None in Eb; apply nth_lt in Hc; lia].
      exists b. split; [reflexivity|]. apply Hsh. eapply nth_error_In; eauto. }
    assert (Hcell : forall ci c border j k b, nth_error cs ci = Some c -> nth_error (tb_cborders tb) ci = Some border -> nth_error names j = Some k -> nth_error border j = Some b ->
        (In (k, b) (ct_workers c) \/ b = 0 /\ ~ In k (map fst (ct_workers c)))).
    { intros ci c border j k b Hc Hb Hj Hx. exact (borders_cells cs _ ci c border j k b (to_cborders _ _ _ _ _ _ Htb) Hso Hc Hb Hj Hx). }
    assert (Hnonneg : forall ci c border j k b, nth_error cs ci = Some c -> nth_error (tb_cborders tb) ci = Some border -> nth_error names j = Some k -> nth_error border j = Some b -> 0 <= b).
    { intros ci c border j k b Hc Hb Hj Hx. destruct (Hcell ci c border j k b Hc Hb Hj Hx) as [H|[-> _]]; [|lia].
      destruct Hcs as [_ Hcs]. destruct (Hcs c (nth_error_In _ _ Hc)) as [_ H']. apply (H' k b H). }
    destruct (sw_team w) as [|k0 tm0] eqn:Etm.
    - inversion S4 as [Eq|]; subst. destruct (idle_contractor cs (spec n) Hne) as (ci & c & E1 & E2 & E3).
      { intros id Hid. apply (to_ids _ _ _ _ _ _ Htb n id); [|exact Hid]. eapply Permutation_in; eauto. }
      exists (repeat 0 (length names)), ci. split.
      { exists w. split; [exact Hw|]. unfold encode_row. rewrite Etm, E1. reflexivity. }
      destruct (Hrow ci c E2) as (border & Hb & Lb). exists c, border. do 3 (split; [assumption|]). split; [apply repeat_length|]. split; [exact Lb|].
      intros j k a b Hj Ha Hbj. apply nth_error_In, repeat_spec in Ha. subst a. split; [eapply Hnonneg; eauto|]. split; [intros r []|reflexivity].
    - rewrite <- Etm in *.
      destruct (index_of_in (map ct_id cs) (ct_id ct) (in_map ct_id _ _ S1)) as [ci Hci].
      destruct (nth_map_id _ _ _ (index_of_nth _ _ _ Hci)) as (c & Hc & Eid).
      assert (c = ct).
      { apply In_nth_error in S1 as [j Hj]. assert (j = ci); [|congruence].
        apply (NoDup_nth_error (map ct_id cs)); [apply Hcs|rewrite map_length; exact (nth_lt _ _ _ Hj)|].
        rewrite (map_nth_error ct_id _ _ Hj). rewrite (index_of_nth _ _ _ Hci). reflexivity. }
      subst c. clear Eid.
      assert (Ekinds : map w_kind (sw_team w) = map r_kind (u_reqs (g_unit g n))).
      { clear -S4. induction S4 as [|r k l tm (_ & E & _) _ IH]; [reflexivity|]. simpl. congruence. }
      assert (Hmem : forall k, In k (sw_team w) -> exists r, In r (u_reqs (g_unit g n)) /\ w_contractor k = ct_id ct /\ w_kind k = r_kind r /\
                 exists m, In (r_kind r, m) (ct_workers ct) /\ r_min r <= w_count k <= r_max r /\ w_count k <= m).
      { intros k Hk. destruct (forall2_right _ _ _ _ S4 Hk) as (r & Hrr & E1 & E2 & _ & m & E3 & E4). exists r. split; [exact Hrr|]. split; [exact E1|]. split; [exact E2|].
        exists m. split; [exact E3|]. apply E4. apply Hsw. }
      destruct (encode_team_spec names cs (ct_id ct) ci Hci (sw_team w) (repeat 0 (length names)) O) as (l' & B1 & B2 & B3 & B4).
      { apply repeat_length. } { rewrite Ekinds. apply (Hr n). }
      { intros k Hk. destruct (Hmem k Hk) as (r & Hrr & E1 & E2 & _). split; [|exact E1]. rewrite E2. apply (to_kinds _ _ _ _ _ _ Htb n r); [|exact Hrr]. eapply Permutation_in; eauto. }
      exists l', ci. split.
      { exists w. split; [exact Hw|]. unfold encode_row. destruct (sw_team w) as [|x y]; [discriminate Etm|exact B1]. }
      destruct (Hrow ci ct Hc) as (border & Hb & Lb). exists ct, border. do 3 (split; [assumption|]). split; [exact B2|]. split; [exact Lb|].
      intros j k a b Hj Ha Hbj. assert (Hix : index_of names k = Some j).
      { destruct (index_of_in names k (nth_error_In _ _ Hj)) as [i Hi]. assert (Hn' := index_of_nth _ _ _ Hi).
        assert (i = j) by (apply (proj1 (NoDup_nth_error names) (names_nodup cs)); [exact (nth_lt _ _ _ Hn')|congruence]). congruence. }
      destruct (in_dec Nat.eq_dec k (map w_kind (sw_team w))) as [Hk|Hk].
      + apply in_map_iff in Hk as (x & <- & Hx). rewrite (B3 x j Hx Hix) in Ha. injection Ha as <-.
        destruct (Hmem x Hx) as (r & Hrr & E1 & E2 & m & E3 & E4 & E5).
        split.
        { destruct (Hcell ci ct border j _ b Hc Hb Hj Hbj) as [H|[_ H]].
          - destruct Hcs as [_ Hcs]. destruct (Hcs ct S1) as [Hnw _]. rewrite E2 in H. rewrite (LftLoop.nodup_fst_unique _ _ _ _ Hnw H E3). exact E5.
          - exfalso. apply H. rewrite E2. apply in_map_iff. exists (r_kind r, m). auto. }
        split.
        { intros r' Hr' Ek. assert (r' = r); [|subst; exact E4]. rewrite E2 in Ek. destruct (Hr n) as [Hndk _]. unfold reqs_of in Hndk.
          clear -Hndk Hrr Hr' Ek. induction (u_reqs (g_unit g n)) as [|q l IH]; [destruct Hrr|]. simpl in Hndk. inversion Hndk; subst.
          destruct Hrr as [<-|Hrr], Hr' as [<-|Hr']; try reflexivity; [| |apply IH; assumption]; exfalso; apply H1; [rewrite <- Ek|rewrite Ek]; apply in_map; assumption. }
        intros H. exfalso. apply H. rewrite E2. apply in_map. exact Hrr.
      + rewrite (B4 j) in Ha; [|intros x Hx E; apply Hk; apply index_of_nth in E; rewrite Hj in E; injection E as ->; apply in_map; exact Hx].
        apply nth_error_In, repeat_spec in Ha. subst a. split; [eapply Hnonneg; eauto|]. rewrite Ekinds in Hk. split; [|reflexivity].
        intros r Hrr <-. exfalso. apply Hk. apply in_map. exact Hrr. }
  assert (Hlen : length heads = length nodes) by (apply Permutation_length; exact P).
  destruct (encode_rows_spec names cs nodes spec sd heads (repeat (repeat 0 (length names), O) (length heads)) Hnh) as (rows & R1 & R2 & R3).
  { intros n Hn. destruct (index_of_in nodes n (Permutation_in _ P Hn)) as [i Hi]. exists i. split; [exact Hi|].
    apply nth_error_repeat. rewrite Hlen. eapply index_of_length; eauto. }
  { intros n Hn. destruct (Hrow n Hn) as (am & ci & H & _). eauto. }
  destruct (map_opt_total (index_of nodes) heads) as [order Ho]; [intros n Hn; apply index_of_in; eapply Permutation_in; eauto|].
  exists (Chr order rows (tb_cborders tb) spec). split; [unfold encode; fold nodes; rewrite Ho; fold names; rewrite R1; reflexivity|].
  assert (HO : Forall2 (fun w n => nth_error nodes w = Some n) order heads).
  { apply map_opt_forall2 in Ho. clear -Ho. induction Ho as [|n w ns ws Hn _ IH]; constructor; [apply index_of_nth; exact Hn|exact IH]. }
  assert (Hrl : length rows = length nodes).
  { rewrite <- Hlen. rewrite <- (repeat_length (repeat 0 (length names), O) (length heads)). symmetry. clear -R1.
    revert R1. generalize (repeat (repeat 0 (length names), O) (length heads)) as rs. induction heads as [|n hs IH]; intros rs R1; cbn [encode_rows] in R1; [congruence|].
    destruct (index_of nodes n) as [i|]; [|discriminate]. destruct (sd_get sd n) as [sw|]; [|discriminate]. destruct (nth_error rs i) as [r|]; [|discriminate].
    destruct (encode_row _ _ _ _ _) as [r'|]; [|discriminate]. destruct (set_nth i r' rs) as [rs'|] eqn:Es; [|discriminate]. rewrite <- (IH rs' R1).
    destruct (set_nth_spec _ _ _ _ Es) as (L & _). congruence. }
  constructor; cbn [ch_order ch_rows ch_borders ch_spec].
  - exists heads. auto.
  - split; [exact Hrl|]. intros n amounts ci (w & Hn & Hw). cbn [ch_rows] in Hw.
    assert (Hh : In n heads) by (eapply Permutation_in; [apply Permutation_sym; exact P|eapply nth_error_In; eauto]).
    destruct (R2 n Hh) as (i & r & I1 & I2 & (sw & I3 & I4)). assert (i = w).
    { apply (proj1 (NoDup_nth_error nodes) Hnn); [exact (nth_lt _ _ _ (index_of_nth _ _ _ I1))|]. rewrite (index_of_nth _ _ _ I1). symmetry. exact Hn. }
    subst i. assert (E : r = (amounts, ci)) by congruence. subst r.
    destruct (Hrow n Hh) as (am' & ci' & (sw' & J3 & J4) & HH). assert (E : (am', ci') = (amounts, ci)) by congruence. injection E as -> ->. exact HH.
  - destruct (cborders_shaped g works cs spec prio tb Htb) as [Hs _]. clear -Hs Htb Hcs Hso. 
    assert (Hb : forall row, In row (tb_cborders tb) -> at_positions (worker_names cs) row row (fun _ b w => 0 <= b <= w)).
    { intros row Hrow. split; [apply Hs, Hrow|]. split; [apply Hs, Hrow|]. intros j k a b Hj Ha Hb. assert (a = b) by congruence. subst b. split; [|lia].
      eapply (borders_nonneg cs (tb_cborders tb) Hcs (to_cborders _ _ _ _ _ _ Htb)); eauto. eapply nth_error_In; eauto. }
    clear -Hb. induction (tb_cborders tb) as [|row l IH]; constructor; [apply Hb; left; reflexivity|apply IH; intros; apply Hb; right; assumption].
  - reflexivity.
  - reflexivity.
Qed.
Print Assumptions feasible_schedule_encodes.

(** ** The time of the answer *)
(** [t] is the time the schedule ends. *)
Definition latest_finish (sd : sched) (t : Z) : Prop :=
  (forall n w, In (n, w) sd -> sw_finish w <= t) /\ exists n w, In (n, w) sd /\ sw_finish w = t.
Lemma latest_finish_unique sd t u : latest_finish sd t -> latest_finish sd u -> t = u.
Proof. intros [H1 (n & w & I1 & <-)] [H2 (m & v & I2 & <-)]. assert (A := H1 _ _ I2). assert (B := H2 _ _ I1). lia. Qed.
Lemma latest_finish_exists sd : sd <> [] -> exists t, latest_finish sd t.
Proof.
  induction sd as [|[n w] sd IH]; [congruence|]. intros _. destruct sd as [|x sd].
  - exists (sw_finish w). split; [intros m v [[= <- <-]|[]]; lia|]. exists n, w. simpl. auto.
  - destruct IH as (t & H1 & m & v & H2 & H3); [discriminate|]. exists (Z.max (sw_finish w) t). split.
    + intros m' v' [[= <- <-]|H]; [lia|]. specialize (H1 _ _ H). lia.
    + destruct (Z.max_spec (sw_finish w) t) as [[_ ->]|[_ ->]]; [exists m, v; split; [right; exact H2|exact H3]|exists n, w; simpl; auto].
Qed.

Section Makespan.
  Variable g : graph.
  Variable works : list nat.
  Variable cs : list contractor.
  Variable spec : nat -> work_spec.
  Hypothesis Hg : graph_ok g works.
  Variable finish : nat.
  Hypothesis Hfin : In finish works.
  Hypothesis Hend : forall n, In n works -> n = finish \/ path (depends_on g) n finish.
  Hypothesis Hlag : forall e, In e (g_edges g) -> 0 <= e_lag e.

  Lemma feasible_precedence sd : feasible g cs spec works sd -> lags_respected g works sd ->
    forall n m v w, depends_on g n m -> In (n, v) sd -> In (m, w) sd -> sw_finish v <= sw_start w.
  Proof.
    intros F L n m v w (e & He & Ht & Hn & Hm) Iv Iw. destruct (gk_closed _ _ Hg e He) as [Cn Cm].
    destruct (has_head g (graph_chains g works Hg) works (gk_closed _ _ Hg) _ Cn) as (hn & Hn1 & Hn2).
    destruct (has_head g (graph_chains g works Hg) works (gk_closed _ _ Hg) _ Cm) as (hm & Hm1 & Hm2).
    assert (Hnd : NoDup (map fst sd)) by (eapply Permutation_NoDup; [apply Permutation_sym, (fs_works _ _ _ _ _ F)|apply (gk_nodup _ _ Hg)]).
    destruct (Nat.eq_dec hn hm) as [<-|Hne].
    - destruct (inseparable_chain_correct g hn (graph_chains g works Hg) (proj2 Hn1)) as (c & Ec & _ & M & CB).
      assert (Hdep : depends_on g (e_from e) (e_to e)) by (exists e; auto).
      assert (P : path (inseparable g) n m).
      { subst n m. assert (Hne : e_from e <> e_to e) by (intros Eq; apply (gk_acyclic _ _ Hg (e_to e)); apply t_step; rewrite Eq in Hdep; exact Hdep).
        destruct (comes_before_total c (e_from e) (e_to e)) as [H|H]; [apply M; exact Hn2|apply M; exact Hm2|exact Hne|apply CB in H; apply H|].
        exfalso. apply CB in H as [_ H]. apply (gk_acyclic _ _ Hg (e_to e)). eapply t_trans; [|apply t_step; exact Hdep].
        eapply path_incl; [|exact H]. intros a b (e' & He' & Hi & Hf & Hto). exists e'. rewrite Hi. auto. }
      clear -P F Iv Iw Hnd Hg. revert v w Iv Iw. induction P as [n m Hi|n k m P1 IH1 P2 IH2]; intros v w Iv Iw.
      + apply (fs_chains _ _ _ _ _ F n m v w Hi Iv Iw).
      + assert (Hk : In k (map fst sd)).
        { eapply Permutation_in; [apply Permutation_sym, (fs_works _ _ _ _ _ F)|]. clear -P1 Hg. induction P1 as [a b (e & He & _ & _ & <-)|]; [apply (gk_closed _ _ Hg e He)|assumption]. }
        apply in_map_iff in Hk as ([k' x] & Ek & Hx). simpl in Ek. subst k'. specialize (IH1 v x Iv Hx). specialize (IH2 x w Hx Iw).
        destruct (fs_times _ _ _ _ _ F k x Hx). lia.
    - assert (G := L e v w He). rewrite Hn, Hm in G. specialize (G Iv Iw).
      assert (Hd : forall h, is_head g works h -> in_chain g h n -> ~ in_chain g h m).
      { intros h Hh H1 H2. rewrite Hn in Hn2. rewrite Hm in Hm2.
        assert (h = hn) by (eapply (head_unique g (graph_chains g works Hg) h hn n); [apply Hh|apply Hn1|exact H1|exact Hn2]).
        assert (h = hm) by (eapply (head_unique g (graph_chains g works Hg) h hm m); [apply Hh|apply Hm1|exact H2|exact Hm2]). congruence. }
      specialize (G Hd). destruct (fs_times _ _ _ _ _ F n v Iv) as [_ Hle].
      assert (sw_finish v <= tadd (sw_finish v) (e_lag e)); [|lia]. specialize (Hlag e He). unfold tadd, set_time. rename Hle into Hle'.
      destruct (fs_times _ _ _ _ _ F n v Iv) as [Hle _]. destruct (TIME_INF <? sw_finish v + e_lag e) eqn:E1; [lia|].
      destruct (sw_finish v + e_lag e <? - TIME_INF) eqn:E2; [assert (0 <= TIME_INF) by (vm_compute; discriminate)|]; lia.
  Qed.
  Lemma schedule_time listing sd : (forall l, Permutation (listing l) l) -> Permutation (map fst sd) works ->
    (forall n w, In (n, w) sd -> 0 <= sw_start w <= sw_finish w /\ sw_finish w <= TIME_INF) ->
    (forall n m v w, depends_on g n m -> In (n, v) sd -> In (m, w) sd -> sw_finish v <= sw_start w) ->
    exists rows t, schedule_rows listing g (rev sd) = Ends rows /\ time_fitness rows = [t] /\ latest_finish sd t.
  Proof.
    intros Hlist F1 F2 F3. assert (Hr : forall x, In x (rev sd) <-> In x sd) by (intros x; rewrite <- in_rev; reflexivity).
    assert (Hw : forall n, In n (map fst (rev sd)) <-> In n works).
    { intros n. rewrite map_rev, <- in_rev. split; apply Permutation_in; [|apply Permutation_sym]; exact F1. }
    destruct (execution_time_is_latest_finish listing g (rev sd) finish) as (rows & t & E1 & E2 & E3 & n & w & E4 & E5).
    - exact Hlist.
    - apply (gk_acyclic _ _ Hg).
    - rewrite map_rev. eapply Permutation_NoDup; [apply Permutation_rev|]. eapply Permutation_NoDup; [apply Permutation_sym; exact F1|apply (gk_nodup _ _ Hg)].
    - intros n w H. apply Hr in H. apply (F2 n w H).
    - intros n m v w D Hv Hm. apply Hr in Hv, Hm. eapply F3; eauto.
    - apply Hw, Hfin.
    - intros n m (e & He & _ & <- & <-). rewrite !Hw. apply (gk_closed _ _ Hg e He).
    - intros n Hn. apply Hend, Hw, Hn.
    - exists rows, t. split; [exact E1|]. split; [unfold time_fitness; rewrite E2; reflexivity|]. split.
      + intros m v H. apply (E3 m v). apply Hr. exact H.
      + exists n, w. split; [apply Hr; exact E4|exact E5].
  Qed.
End Makespan.

Lemma measure_no_worse g works est cs spec prio apt opt tb listing decode (good : sched -> Prop) (fitness : ValidationModel.works -> list Z) (measure : sched -> Z -> Prop) shuffle draw timeout nsga2 size worst mp number init :
  genetic_inputs g works est cs spec apt opt -> prepare g works cs spec prio = Some tb -> (forall l, Permutation (listing l) l) ->
  (forall sd, good sd -> Permutation (map fst sd) works) ->
  (forall ch, valid g spec tb opt ch -> exists sd, decode ch = Some sd /\ good sd) ->
  (forall sd, good sd -> exists rows t, schedule_rows listing g (rev sd) = Ends rows /\ fitness rows = [t] /\ measure sd t) ->
  (forall rows, length (fitness rows) = 1%nat) ->
  (forall s k l, Permutation (shuffle s k l) l) -> (forall s k l, incl (nsga2 s k l) l) -> (forall s k, draws_ok (draw s k)) -> (0 < size)%nat ->
  init <> [] -> Forall (individual_ok g cs spec prio (tb_nodes tb) (tb_cborders tb) opt) init ->
  exists ch sd t, genetic_schedules g cs tb decode listing shuffle draw timeout nsga2 false size [-1] fitness [worst] opt mp number init = Some [(ch, sd)] /\
    good sd /\ measure sd t /\
    forall c, In c init -> exists sd0 t0, decode c = Some sd0 /\ measure sd0 t0 /\ t <= t0.
Proof.
  intros Hin Hp Hl Hgw Hdec Htime Hlen Hs Hn Hd Hsize Hne Hi.
  destruct (answers_ok g works est cs spec prio apt opt tb listing Hin Hp Hl decode good Hgw Hdec shuffle draw timeout nsga2 Hs Hn Hd
    false size [-1] fitness [worst] mp number init Hlen eq_refl Hne Hi)
    as (st & answers & Es & Ea & A1 & A2 & A3).
  set (fit := evaluate_with g cs tb decode listing fitness [worst]) in *.
  assert (Hfit : forall c, valid g spec tb opt c -> exists sd t, decode c = Some sd /\ measure sd t /\ fit c = Some [t]).
  { intros c V. destruct (evaluate_ok g works est cs spec prio apt opt tb listing Hin Hp Hl decode good Hgw Hdec fitness [worst] c V)
      as (sd & rows & E1 & E2 & E4 & E5).
    destruct (Htime sd E2) as (rows' & t & E6 & E7 & E8).
    assert (rows' = rows) by congruence. subst rows'. exists sd, t. split; [exact E1|]. split; [exact E8|]. unfold fit. rewrite E5, E7. reflexivity. }
  destruct (genetic_best_of_all chromosome shuffle (fun s gen o pop => make_offspring tb (draw s gen) o pop) timeout nsga2 size (-1) fit opt mp number init st Hs Hn)
    as (h & v & B1 & B2 & B3 & _); [|exact Hsize|exact Es|].
  { intros c u. unfold fit, evaluate_with. destruct (validate cs tb c); [|intros [= <-]; reflexivity].
    destruct (decode c) as [sd|]; [|discriminate]. destruct (schedule_rows listing g (rev sd)); [|discriminate]. intros [= <-]. apply Hlen. }
  rewrite B1 in A2. inversion A2 as [|h' [c sd] hs as' [C1 C2] C3]; subst. inversion C3; subst. cbn [fst snd] in *.
  destruct (A3 c sd (or_introl eq_refl)) as (I1 & I2).
  assert (Hok : forall x, individual_ok g cs spec prio (tb_nodes tb) (tb_cborders tb) opt x -> valid g spec tb opt x).
  { intros x Hx. apply (ok_valid g works est cs spec prio apt opt tb Hin Hp x). exact Hx. }
  destruct (Hfit c (Hok c I1)) as (sd' & t & D1 & D2 & D3). assert (sd' = sd) by congruence. subst sd'. assert (E : [t] = [v]) by congruence. injection E as <-.
  exists c, sd, t. split; [exact Ea|]. split; [exact I2|]. split; [exact D2|].
  intros c0 Hc0. rewrite Forall_forall in Hi. destruct (Hfit c0 (Hok c0 (Hi c0 Hc0))) as (sd0 & t0 & G1 & G2 & G3).
  exists sd0, t0. split; [exact G1|]. split; [exact G2|]. destruct (B3 c0 Hc0) as (u & U1 & U2). assert (E : [u] = [t0]) by congruence. injection E as ->. lia.
Qed.

Lemma time_no_worse g works est cs spec prio apt opt tb listing decode (good : sched -> Prop) shuffle draw timeout nsga2 size worst mp number init :
  genetic_inputs g works est cs spec apt opt -> prepare g works cs spec prio = Some tb -> (forall l, Permutation (listing l) l) ->
  (forall sd, good sd -> Permutation (map fst sd) works) ->
  (forall ch, valid g spec tb opt ch -> exists sd, decode ch = Some sd /\ good sd) ->
  (forall sd, good sd -> exists rows t, schedule_rows listing g (rev sd) = Ends rows /\ time_fitness rows = [t] /\ latest_finish sd t) ->
  (forall s k l, Permutation (shuffle s k l) l) -> (forall s k l, incl (nsga2 s k l) l) -> (forall s k, draws_ok (draw s k)) -> (0 < size)%nat ->
  init <> [] -> Forall (individual_ok g cs spec prio (tb_nodes tb) (tb_cborders tb) opt) init ->
  exists ch sd t, genetic_schedules g cs tb decode listing shuffle draw timeout nsga2 false size [-1] time_fitness [worst] opt mp number init = Some [(ch, sd)] /\
    good sd /\ latest_finish sd t /\
    forall c, In c init -> exists sd0 t0, decode c = Some sd0 /\ latest_finish sd0 t0 /\ t <= t0.
Proof.
  intros Hin Hp Hl Hgw Hdec Htime. apply (measure_no_worse g works est cs spec prio apt opt tb listing decode good time_fitness latest_finish); auto.
Qed.

(** C69. Minimizing the execution time, the genetic scheduler answers one schedule, and it
    ends no later than the schedule of any individual of the first population. *)
Theorem genetic_time_no_worse :
  forall g works est cs spec prio apt optimize tb finish listing shuffle draw timeout nsga2 size worst max_plateau number init,
    genetic_inputs g works est cs spec apt optimize -> prepare g works cs spec prio = Some tb ->
    (forall e, In e (g_edges g) -> 0 <= e_lag e) ->
    In finish works -> (forall n, In n works -> n = finish \/ path (depends_on g) n finish) ->
    (forall l, Permutation (listing l) l) -> (forall s k l, Permutation (shuffle s k l) l) -> (forall s k l, incl (nsga2 s k l) l) ->
    (forall s k, draws_ok (draw s k)) -> (0 < size)%nat ->
    init <> [] -> Forall (individual_ok g cs spec prio (tb_nodes tb) (tb_cborders tb) optimize) init ->
    exists ch sd t, genetic_schedules g cs tb (serial g est cs tb apt) listing shuffle draw timeout nsga2 false size [-1] time_fitness [worst]
                      optimize max_plateau number init = Some [(ch, sd)] /\
      feasible g cs spec works sd /\ lags_respected g works sd /\ latest_finish sd t /\
      forall c, In c init -> exists sd0 t0, serial g est cs tb apt c = Some sd0 /\ latest_finish sd0 t0 /\ t <= t0.
Proof.
  intros g works est cs spec prio apt opt tb finish listing shuffle draw timeout nsga2 size worst mp number init Hin Hp Hlag Hfin Hend Hl Hs Hn Hd Hsize Hne Hi.
  assert (Hg := gi_graph _ _ _ _ _ _ _ Hin). assert (Htb := prepare_ok _ _ _ _ _ _ Hg Hp).
  destruct (time_no_worse g works est cs spec prio apt opt tb listing (serial g est cs tb apt) (fun sd => feasible g cs spec works sd /\ lags_respected g works sd)
    shuffle draw timeout nsga2 size worst mp number init Hin Hp Hl) as (ch & sd & t & E & [F L] & Ht & H); try assumption; [| | |eauto 10].
  - intros sd [F _]. apply (fs_works _ _ _ _ _ F).
  - intros ch V. destruct (serial_ok g works est cs spec prio apt opt tb Hin Htb ch V) as (sd & start & E & F & L). exists sd. unfold serial. rewrite E. auto.
  - intros sd [F L]. apply (schedule_time g works Hg finish Hfin Hend listing sd Hl (fs_works _ _ _ _ _ F) (fs_times _ _ _ _ _ F)).
    eapply feasible_precedence; eauto.
Qed.
Print Assumptions genetic_time_no_worse.

(** The schedule of HEFTBetweenScheduler becomes an individual of the first population: it
    can be encoded, and decoding gives its times and teams back. *)
Theorem heft_between_individual_ok :
  forall g works est cs spec prio optimizer optimize tb sd0 s0,
    genetic_inputs g works est cs spec 0 optimize -> (forall n, sp_workers (spec n) = []) -> cs <> [] ->
    (forall n r, In r (reqs_of g n) -> In (r_kind r) (worker_names cs)) ->
    (forall n id, In id (sp_contractors (spec n)) -> In id (map ct_id cs)) ->
    priorities_ok g works prio -> (forall n c sd s, optimizer_ok (optimizer n c sd s)) ->
    prepare g works cs spec prio = Some tb ->
    heft_between g works est prio optimizer cs spec 0 = Scheduled sd0 s0 ->
    exists c0 sd, heft_between_individual g works est prio optimizer cs spec tb = Some c0 /\
      individual_ok g cs spec prio (tb_nodes tb) (tb_cborders tb) optimize c0 /\
      serial g est cs tb 0 c0 = Some sd /\ Forall2 same_but_idle sd0 sd.
Proof.
  intros g works est cs spec prio optimizer opt tb sd0 s0 Hin Hsw Hne Hkn Hids Hpr Hopt Hp Hh.
  assert (Hg := gi_graph _ _ _ _ _ _ _ Hin). assert (Htb := prepare_ok _ _ _ _ _ _ Hg Hp).
  destruct (inputs_parts _ _ _ _ _ _ _ Hin) as (H1 & H2 & H3 & H4 & H5 & H6).
  assert (F := heft_between_feasible g works est prio optimizer cs spec 0 sd0 s0 Hg Hpr (gi_inputs _ _ _ _ _ _ _ Hin) Hopt (gi_few _ _ _ _ _ _ _ Hin) Hh).
  destruct F as [F _].
  unfold heft_between, schedule_with_cache in Hh. unfold heft_between_individual, heuristic_schedule.
  destruct (head_nodes_correct g works (gk_nodup _ _ Hg) (gk_closed _ _ Hg) (graph_chains g works Hg)) as (_ & [R|(E & _)]); [|rewrite E in Hh; discriminate].
  destruct R as (order & ps & chs & E & O1 & O2 & O3 & O4 & _). rewrite E in *.
  assert (Etb : tb_nodes tb = order).
  { unfold prepare in Hp. destruct (contractor_borders cs); [|discriminate]. rewrite E in Hp. destruct (forallb _ order); [|discriminate]. injection Hp as <-. reflexivity. }
  assert (Enm : tb_names tb = worker_names cs) by apply Htb.
  assert (Hab : forall x y, above order (ids_of ps) x y <-> In x order /\ In y order /\ prerequisite g x y).
  { intros x y. unfold above. split.
    - intros (Hx & Hy & H). apply (O4 y x Hy) in H. tauto.
    - intros (Hx & Hy & H). split; [exact Hx|]. split; [exact Hy|]. apply O4; auto. }
  destruct (heft_order_correct g est prio (ids_of ps) order H2 (graph_chains g works Hg)) as (l & El & P & T & A).
  { intros n Hn. apply O2 in Hn. apply Hn. } { exact O1. }
  { intros x y Hxy Hx Hy. apply O3; auto. apply Hab. exact Hxy. }
  { intros x y Hxy. apply Hab in Hxy as (Hx & Hy & H). apply O2 in Hx, Hy. apply Hpr; assumption. }
  rewrite El in *. destruct (momentum_build g est optimizer cs spec 0 l) as [[sd s]| |] eqn:Eb; try discriminate. injection Hh as -> ->.
  assert (T1 : topological (prerequisite g) l).
  { intros x y Hxy Hx Hy. apply T; auto. apply Hab. split; [eapply Permutation_in; eauto|]. split; [eapply Permutation_in; eauto|exact Hxy]. }
  assert (T2 : topological (fun x y => prio x < prio y) l).
  { intros x y Hxy Hx Hy. assert (Hd : x <> y) by (intros ->; lia). destruct (comes_before_total l x y Hx Hy Hd) as [H|(p & q & r & H)]; [exact H|]. exfalso.
    unfold StableSort.ascending in A. rewrite H in A. clear -A Hxy. induction p as [|z p IH]; simpl in A; apply StronglySorted_inv in A as [A Af]; [|auto].
    rewrite Forall_forall in Af. specialize (Af x ltac:(apply in_or_app; right; left; reflexivity)). lia. }
  rewrite Enm, Etb. rewrite <- Etb in P.
  destruct (feasible_schedule_encodes g works cs spec prio tb opt sd0 l Hg H1 Hne (gi_order _ _ _ _ _ _ _ Hin) H3 Hsw Hp F P T1 T2) as (c0 & E0 & I0).
  rewrite Etb in E0.
  assert (Hnl : NoDup l) by (eapply Permutation_NoDup; [apply Permutation_sym; exact P|rewrite Etb; exact O1]).
  assert (Hhd : forall h, In h l <-> is_head g works h).
  { intros h. rewrite <- O2, <- Etb. split; apply Permutation_in; [exact P|apply Permutation_sym; exact P]. }
  destruct (order_chains g works Hg l Hnl Hhd T1) as (chains & C1 & C2 & C3 & C4 & C5).
  assert (Hlen : Z.of_nat (length l) < TIME_INF).
  { assert (L := gi_few _ _ _ _ _ _ _ Hin).
    assert (length l <= length works)%nat by (apply NoDup_incl_length; [exact Hnl|]; intros h H; apply Hhd in H; apply H). lia. }
  destruct (encode_decode_round_trip g est optimizer (worker_names cs) cs order (tb_cborders tb) spec 0 l chains sd0 s0 H1 H2 Hopt H3 H4 H5 H6 C1 C2 Hlen
    (fun e He _ _ => C4 e He) (names_nodup cs) Hkn O1) as (ch & sd' & start & R1 & R2 & R3).
  - intros x Hx. rewrite <- Etb. eapply Permutation_in; eauto.
  - rewrite <- Etb. symmetry. apply Permutation_length. exact P.
  - apply (borders_placed cs _ H1 (to_cborders _ _ _ _ _ _ Htb) (gi_order _ _ _ _ _ _ _ Hin)).
  - exact Hids.
  - intros n Hl r Hr. exfalso. rewrite Hsw in Hl. destruct (u_reqs (g_unit g n)); [destruct Hr|discriminate].
  - exact Hne.
  - exact Eb.
  - exists c0, sd'. assert (ch = c0) by congruence. subst ch. split; [exact E0|]. split; [first [exact I0|rewrite <- Etb; exact I0|rewrite Etb in I0; exact I0]|]. split; [|exact R3].
    unfold serial. rewrite Etb, R2. reflexivity.
Qed.
Print Assumptions heft_between_individual_ok.

Lemma latest_finish_alike sd sd' t : Forall2 same_but_idle sd sd' -> latest_finish sd t -> latest_finish sd' t.
Proof.
  intros F [H1 (n & w & I & E)]. split.
  - intros m v Hm. destruct (forall2_right _ _ _ _ F Hm) as ([m' v'] & Hin & S). destruct S as (S1 & S2 & S3 & _). cbn [fst snd] in *. specialize (H1 _ _ Hin). lia.
  - destruct (forall2_left _ _ _ _ F I) as ([m' v'] & Hin & S). destruct S as (S1 & S2 & S3 & _). cbn [fst snd] in *. exists m', v'. split; [exact Hin|lia].
Qed.
(** C69. Minimizing the execution time from project start zero, with the schedule of
    HEFTBetweenScheduler in the first population, the genetic scheduler answers a schedule
    that ends no later than HEFTBetweenScheduler's. *)
Theorem genetic_no_worse_than_heft_between :
  forall g works est cs spec prio optimizer optimize tb finish listing shuffle draw timeout nsga2 size worst max_plateau number init sd0 s0 t0,
    genetic_inputs g works est cs spec 0 optimize -> prepare g works cs spec prio = Some tb ->
    (forall e, In e (g_edges g) -> 0 <= e_lag e) ->
    In finish works -> (forall n, In n works -> n = finish \/ path (depends_on g) n finish) ->
    (forall l, Permutation (listing l) l) -> (forall s k l, Permutation (shuffle s k l) l) -> (forall s k l, incl (nsga2 s k l) l) ->
    (forall s k, draws_ok (draw s k)) -> (0 < size)%nat ->
    Forall (individual_ok g cs spec prio (tb_nodes tb) (tb_cborders tb) optimize) init ->
    (* the heuristic schedule is in the first population *)
    (forall n, sp_workers (spec n) = []) -> cs <> [] ->
    (forall n r, In r (reqs_of g n) -> In (r_kind r) (worker_names cs)) ->
    (forall n id, In id (sp_contractors (spec n)) -> In id (map ct_id cs)) ->
    priorities_ok g works prio -> (forall n c sd s, optimizer_ok (optimizer n c sd s)) ->
    heft_between g works est prio optimizer cs spec 0 = Scheduled sd0 s0 -> latest_finish sd0 t0 ->
    (exists c0, heft_between_individual g works est prio optimizer cs spec tb = Some c0 /\ In c0 init) ->
    exists ch sd t, genetic_schedules g cs tb (serial g est cs tb 0) listing shuffle draw timeout nsga2 false size [-1] time_fitness [worst]
                      optimize max_plateau number init = Some [(ch, sd)] /\
      feasible g cs spec works sd /\ latest_finish sd t /\ t <= t0.
Proof.
  intros g works est cs spec prio optimizer opt tb finish listing shuffle draw timeout nsga2 size worst mp number init sd0 s0 t0
    Hin Hp Hlag Hfin Hend Hl Hs Hn Hd Hsize Hi Hsw Hne Hkn Hids Hpr Hopt Hh Ht0 (c0 & Ec & Ic).
  destruct (heft_between_individual_ok g works est cs spec prio optimizer opt tb sd0 s0 Hin Hsw Hne Hkn Hids Hpr Hopt Hp Hh) as (c & sd' & A1 & _ & A3 & A4).
  assert (c = c0) by congruence. subst c.
  destruct (genetic_time_no_worse g works est cs spec prio 0 opt tb finish listing shuffle draw timeout nsga2 size worst mp number init Hin Hp Hlag Hfin Hend Hl Hs Hn Hd Hsize)
    as (ch & sd & t & B1 & B2 & _ & B3 & B4); [intros ->; destruct Ic|exact Hi|].
  exists ch, sd, t. do 3 (split; [assumption|]). destruct (B4 c0 Ic) as (sd1 & t1 & C1 & C2 & C3).
  assert (sd1 = sd') by congruence. subst sd1. rewrite (latest_finish_unique _ _ _ (latest_finish_alike _ _ _ A4 Ht0) C2). exact C3.
Qed.
Print Assumptions genetic_no_worse_than_heft_between.

(** ** The hypotheses are met: the works of [sx_graph], borders optimized *)
Lemma gx_inputs : genetic_inputs sx_graph px_nodes sx_est sx_contractors sx_spec 0 true.
Proof.
  destruct pipeline_hypotheses as (P1 & P2 & P3 & P4 & P5 & P6 & P7 & P8 & P9 & P10 & P11 & P12 & P13 & P14).
  constructor; auto.
  - discriminate.
  - intros c [<-|[<-|[]]]; exists []; reflexivity.
  - intros n r c Hr Hc Hz. exfalso. do 6 (destruct n as [|n]; [simpl in Hr; repeat destruct Hr as [<-|Hr]; try contradiction; discriminate|]). destruct Hr.
  - intros n. unfold sx_spec. destruct (Nat.eqb n 4); constructor.
  - intros n k m. unfold sx_spec. destruct (Nat.eqb n 4); intros [].
  - intros _ n. unfold sx_spec. destruct (Nat.eqb n 4); reflexivity.
Qed.
Definition gx_toolbox : option toolbox := prepare sx_graph px_nodes sx_contractors sx_spec (fun _ => 1).
(** All answers the first possible ones; every chance is taken. *)
Definition gx_draws (s k : nat) : draws :=
  Draws (fun j i lo hi => lo) (fun j i => Nat.even i) (fun j c i => true) (fun j c i l => hd 0 l) (fun j i w => true) (fun j i l => l)
        (fun j i w l => hd O l) (fun j w => true) (fun j w l => hd O l) (fun j w i => true) (fun j w i l => hd 0 l).
Lemma gx_draws_ok s k : draws_ok (gx_draws s k).
Proof.
  unfold draws_ok, gx_draws. simpl. repeat split; try lia; try (intros ? ? ? [|x l] H; [congruence|left; reflexivity]);
    try (intros ? ? [|x l] H; [congruence|left; reflexivity]); auto.
Qed.
Definition gx_individual : option chromosome :=
  match gx_toolbox with
  | Some tb => heft_between_individual sx_graph px_nodes sx_est (fun _ => 1) sx_optimize sx_contractors sx_spec tb
  | None => None
  end.
Definition gx_answer :=
  match gx_toolbox, gx_individual with
  | Some tb, Some c =>
      genetic_schedules sx_graph sx_contractors tb (serial sx_graph sx_est sx_contractors tb 0) (fun l => l) (fun _ _ l => l) gx_draws (fun _ _ => false)
        (fun _ _ l => l) false 2 [-1] time_fitness [TIME_INF] true None 3 [c; c]
  | _, _ => None
  end.
(** HEFTBetweenScheduler ends at 32; the answer at 22, with a smaller workforce. *)
Example gx_values :
  option_map (fun c => (ch_order c, ch_rows c, ch_borders c)) gx_individual =
    Some ([0; 1; 2; 3; 4]%nat, [([0; 0], 0%nat); ([1; 1], 1%nat); ([2; 0], 0%nat); ([2; 1], 1%nat); ([0; 0], 0%nat)], [[3; 2]; [2; 1]]) /\
  option_map (map (fun a => (ch_order (fst a), ch_rows (fst a), ch_borders (fst a), times (snd a)))) gx_answer =
    Some [([0; 1; 2; 3; 4]%nat, [([0; 0], 0%nat); ([2; 1], 1%nat); ([2; 0], 0%nat); ([2; 1], 1%nat); ([0; 0], 0%nat)], [[2; 0]; [2; 1]],
           [(0%nat, 0, 0); (1%nat, 0, 6); (2%nat, 6, 13); (3%nat, 2, 10); (4%nat, 13, 22); (5%nat, 22, 22)])].
Proof. vm_compute. split; reflexivity. Qed.
Lemma gx_finish n : In n px_nodes -> n = 5%nat \/ path (depends_on sx_graph) n 5.
Proof.
  assert (E : forall e, In e (g_edges sx_graph) -> path (depends_on sx_graph) (e_from e) (e_to e)).
  { intros e He. apply t_step. exists e. split; [exact He|]. split; [apply (gk_types _ _ px_graph_ok e He)|auto]. }
  assert (E1 := E (Ed 0 1 0 FS) ltac:(simpl; tauto)). assert (E2 := E (Ed 1 2 0 IFS) ltac:(simpl; tauto)).
  assert (E4 := E (Ed 2 4 0 FS) ltac:(simpl; tauto)). assert (E5 := E (Ed 3 4 1 FS) ltac:(simpl; tauto)). assert (E6 := E (Ed 4 5 0 FS) ltac:(simpl; tauto)).
  cbn [e_from e_to] in *. assert (F2 := t_trans _ _ _ _ _ E4 E6). assert (F1 := t_trans _ _ _ _ _ E2 F2).
  intros [<-|[<-|[<-|[<-|[<-|[<-|[]]]]]]]; auto; right; [exact (t_trans _ _ _ _ _ E1 F1)|exact (t_trans _ _ _ _ _ E5 E6)].
Qed.
Example genetic_hypotheses :
  genetic_inputs sx_graph px_nodes sx_est sx_contractors sx_spec 0 true /\
  (exists tb c sd0 s0 ch sd t0 t,
     prepare sx_graph px_nodes sx_contractors sx_spec (fun _ => 1) = Some tb /\
     (forall s k, draws_ok (gx_draws s k)) /\ (forall n, In n px_nodes -> n = 5%nat \/ path (depends_on sx_graph) n 5) /\
     heft_between_individual sx_graph px_nodes sx_est (fun _ => 1) sx_optimize sx_contractors sx_spec tb = Some c /\
     individual_ok sx_graph sx_contractors sx_spec (fun _ => 1) (tb_nodes tb) (tb_cborders tb) true c /\
     heft_between sx_graph px_nodes sx_est (fun _ => 1) sx_optimize sx_contractors sx_spec 0 = Scheduled sd0 s0 /\ latest_finish sd0 t0 /\
     gx_answer = Some [(ch, sd)] /\ feasible sx_graph sx_contractors sx_spec px_nodes sd /\ latest_finish sd t /\ t <= t0 /\ t = 22 /\ t0 = 32).
Proof.
  split; [exact gx_inputs|].
  destruct pipeline_hypotheses as (P1 & P2 & P3 & P4 & P5 & P6 & P7 & P8 & P9 & P10 & P11 & P12 & P13 & P14).
  destruct (prepare sx_graph px_nodes sx_contractors sx_spec (fun _ => 1)) as [tb|] eqn:Ep; [|exfalso; vm_compute in Ep; discriminate].
  destruct (heft_between sx_graph px_nodes sx_est (fun _ => 1) sx_optimize sx_contractors sx_spec 0) as [sd0 s0| | |] eqn:Eh; try (exfalso; vm_compute in Eh; discriminate).
  assert (Hk : forall n r, In r (reqs_of sx_graph n) -> In (r_kind r) (worker_names sx_contractors)).
  { intros n r Hr. do 6 (destruct n as [|n]; [simpl in Hr; repeat destruct Hr as [<-|Hr]; try contradiction; simpl; tauto|]). destruct Hr. }
  assert (Hsw : forall n, sp_workers (sx_spec n) = []) by (intros n; unfold sx_spec; destruct (Nat.eqb n 4); reflexivity).
  assert (Hid : forall n id, In id (sp_contractors (sx_spec n)) -> In id (map ct_id sx_contractors)).
  { intros n id. unfold sx_spec. destruct (Nat.eqb n 4); [intros [<-|[]]; simpl; tauto|intros []]. }
  assert (Ht0 : latest_finish sd0 32).
  { vm_compute in Eh. injection Eh as <- _. split.
    - intros n w H. repeat destruct H as [[= <- <-]|H]; try (vm_compute; discriminate). destruct H.
    - eexists _, _. split; [left; reflexivity|reflexivity]. }
  destruct (heft_between_individual_ok sx_graph px_nodes sx_est sx_contractors sx_spec (fun _ => 1) sx_optimize true tb sd0 s0 gx_inputs Hsw ltac:(discriminate) Hk Hid P2 P5 Ep Eh)
    as (c & sd' & A1 & A2 & A3 & A4).
  destruct (genetic_no_worse_than_heft_between sx_graph px_nodes sx_est sx_contractors sx_spec (fun _ => 1) sx_optimize true tb 5 (fun l => l) (fun _ _ l => l) gx_draws
    (fun _ _ => false) (fun _ _ l => l) 2%nat TIME_INF None 3 [c; c] sd0 s0 32 gx_inputs Ep) as (ch & sd & t & B1 & B2 & B3 & B4).
  - intros e He. simpl in He. repeat destruct He as [<-|He]; try (simpl; lia); contradiction.
  - simpl; tauto.
  - exact gx_finish.
  - intros l. apply Permutation_refl.
  - intros s k l. apply Permutation_refl.
  - intros s k l x Hx. exact Hx.
  - exact gx_draws_ok.
  - lia.
  - constructor; [exact A2|constructor; [exact A2|constructor]].
  - exact Hsw.
  - discriminate.
  - exact Hk.
  - exact Hid.
  - exact P2.
  - exact P5.
  - exact Eh.
  - exact Ht0.
  - exists c. split; [exact A1|left; reflexivity].
  - exists tb, c, sd0, s0, ch, sd, 32, t. split; [reflexivity|]. split; [exact gx_draws_ok|]. split; [exact gx_finish|]. split; [exact A1|]. split; [exact A2|].
    split; [reflexivity|]. split; [exact Ht0|].
    assert (Ea : gx_answer = Some [(ch, sd)]).
    { unfold gx_answer, gx_individual, gx_toolbox. rewrite Ep, A1. exact B1. }
    split; [exact Ea|]. do 3 (split; [assumption|]). split; [|reflexivity].
    apply (latest_finish_unique sd); [exact B3|]. assert (Es : option_map (map (fun a : chromosome * sched => times (snd a))) gx_answer =
      Some ([[(0%nat, 0, 0); (1%nat, 0, 6); (2%nat, 6, 13); (3%nat, 2, 10); (4%nat, 13, 22); (5%nat, 22, 22)]])) by (vm_compute; reflexivity).
    rewrite Ea in Es. injection Es as Es. clear -Es. unfold times in Es.
    assert (Hin : forall n w, In (n, w) sd <-> In (n, w) (rev sd)) by (intros; rewrite <- in_rev; reflexivity).
    split.
    + intros n w H. apply Hin in H. apply (in_map (fun x => (fst x, sw_start (snd x), sw_finish (snd x)))) in H. cbn [fst snd] in H. rewrite Es in H.
      repeat destruct H as [H|H]; try (injection H as _ _ <-; lia). destruct H.
    + assert (H : In (5%nat, 22, 22) (map (fun x => (fst x, sw_start (snd x), sw_finish (snd x))) (rev sd))) by (rewrite Es; simpl; tauto).
      apply in_map_iff in H as ([n w] & E & H). cbn [fst snd] in E. injection E as _ _ E. exists n, w. split; [apply Hin; exact H|exact E].
Qed.

(** ** Finding: fixed worker counts and optimized borders *)
Definition fx_spec (n : nat) : work_spec := if Nat.eqb n 3 then WSpec [0%nat] [(0%nat, 3)] None false else WSpec [] [] None false.
Definition fx_toolbox : option toolbox := prepare sx_graph px_nodes sx_contractors fx_spec (fun _ => 1).
Definition fx_individual : option chromosome :=
  match fx_toolbox with
  | Some tb => heft_between_individual sx_graph px_nodes sx_est (fun _ => 1) sx_optimize sx_contractors fx_spec tb
  | None => None
  end.
Definition fx_answer :=
  match fx_toolbox, fx_individual with
  | Some tb, Some c =>
      genetic_schedules sx_graph sx_contractors tb (serial sx_graph sx_est sx_contractors tb 0) (fun l => l) (fun _ _ l => l) gx_draws (fun _ _ => false)
        (fun _ _ l => l) false 2 [-1] time_fitness [TIME_INF] true None 3 [c; c]
  | _, _ => None
  end.
(** The specification asks for three workers and the contractor has three. The heuristic
    individual decodes. After two rounds of mutation the border of the contractor is two,
    the individual passes the validity check, and decoding raises: no schedule is answered. *)
Theorem specified_counts_break_optimized_borders :
  (forall n, spec_ok (fx_spec n)) /\ (forall n, spec_fits sx_contractors (reqs_of sx_graph n) (fx_spec n)) /\
  exists tb c sd l children child,
    fx_toolbox = Some tb /\ fx_individual = Some c /\ serial sx_graph sx_est sx_contractors tb 0 c = Some sd /\
    make_offspring tb (gx_draws 0 0) true [c; c] = Some l /\ make_offspring tb (gx_draws 0 0) true l = Some children /\ In child children /\
    validate sx_contractors tb child = true /\ serial sx_graph sx_est sx_contractors tb 0 child = None /\
    fx_answer = None.
Proof.
  split; [intros n; unfold fx_spec; destruct (Nat.eqb n 3); (split; [intros k m H; simpl in H|exact I]); [destruct H as [[= <- <-]|[]]; lia|destruct H]|].
  split.
  { intros n. unfold fx_spec. destruct (Nat.eqb_spec n 3) as [->|_]; (split; [|intros E r Hr]).
    - intros ct k m b [<-|[<-|[]]] [H|[H|[]]] [[= <- <-]|[]] Hb; try discriminate; simpl in Hb. repeat destruct Hb as [[= <-]|Hb]; try lia; destruct Hb.
    - simpl in Hr. destruct Hr as [<-|[]]. simpl. tauto.
    - intros ct k m b _ _ [].
    - exfalso. simpl in E. destruct (reqs_of sx_graph n); [destruct Hr|discriminate]. }
  destruct fx_toolbox as [tb|] eqn:Et; [|exfalso; vm_compute in Et; discriminate].
  destruct fx_individual as [c|] eqn:Ec; [|exfalso; vm_compute in Ec; discriminate].
  exists tb, c. vm_compute in Et. vm_compute in Ec. injection Et as <-. injection Ec as <-.
  eexists _, _, _, _. do 2 (split; [reflexivity|]). split; [vm_compute; reflexivity|]. split; [vm_compute; reflexivity|]. split; [vm_compute; reflexivity|].
  split; [left; reflexivity|]. split; [vm_compute; reflexivity|]. split; vm_compute; reflexivity.
Qed.
Print Assumptions specified_counts_break_optimized_borders.
