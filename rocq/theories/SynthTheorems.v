(** C112: the generator of synthetic work graphs. *)
From Coq Require Import ZArith QArith Qround List Bool Lia Lqa Arith Permutation Relations.
From Verif Require Import TimeModel MomentumModel JITModel MomentumSpec GraphModel ScheduleModel ScheduleSpec ContractorProofs TeamProofs
  ContractorTheorems ScheduleInv ScheduleTheorems JitScheduleTheorems Digraph HeadModel HeadProofs HeadTheorems PriorityModel
  TopoModel TopoProofs TopoTheorems TraverseModel TraverseProofs
  ValidationModel ValidationTheorems PipelineModel PipelineTheorems ResourceModel ResourceTheorems EstimatorModel EstimatorTheorems EnvModel EnvTheorems
  SynthModel SynthSpec SynthProofs.
Import ListNotations.
Local Open Scope Z_scope.

Lemma empty_ok : ok (GS [] [] 0) [] [] [].
Proof. constructor; cbn; try reflexivity; try contradiction; try (unfold size; cbn; lia). constructor. Qed.
Lemma project_made unit s tops open nodes h : ok s tops open h -> known s nodes -> incl tops nodes -> incl open nodes -> (0 < size s)%nat ->
  exists p w, project_from unit s nodes = Some p /\ good_project unit p w /\ pr_works p = gs_works s /\ handing_stages (pr_works p) = h /\ forall a b, joined s a b -> linked (wg_graph w) a b.
Proof.
  intros H1 H2 H3 H4 H5. destruct (from_nodes_legal unit s tops open nodes h H1 H2 H3 H4 H5) as (w & E & L & J). unfold project_from. rewrite E. cbn [option_map].
  exists (Project (Ends w) (gs_works s)), w. split; [reflexivity|]. split; [|split; [reflexivity|split; [apply (ok_handings _ _ _ _ H1)|exact J]]].
  constructor; cbn [pr_graph pr_works]; [reflexivity|exact L|apply (ok_works _ _ _ _ H1)|]. rewrite (Permutation_length (lg_nodes _ _ _ L)). apply seq_length.
Qed.

(** ** Small graphs *)
(** Whatever the random numbers, a small graph is made, is a good project of one cluster and has
    30 to 50 vertices, as its description says. *)
Theorem small_graph_correct unit u : unit_draws u ->
  exists p w, get_small_graph unit u = Some p /\ good_project unit p w /\ cluster_number (pr_works p) = 1%nat /\ (30 <= length (wg_nodes w) <= 50)%nat.
Proof.
  intros U. unfold get_small_graph, bind. destruct (small_counts_made u U _ _ _ _ empty_ok) as (A1 & A2 & A3 & A4). destruct (small_counts u (GS [] [] 0)) as [c s1]. cbn [fst snd] in *.
  destruct (cluster_made u U c None s1 _ _ _ A3 A2 ltac:(discriminate)) as (B1 & B2 & B3 & (B4 & _) & B5). destruct (get_cluster_works u c None s1) as [[[h r] k] s2]. cbn [fst snd] in *.
  assert (Z0 : size (GS [] [] 0) = 0%nat) by reflexivity.
  destruct (project_made unit s2 _ _ (road_list r ++ [h]) _ B5) as (p & w & E & G & W & N & _).
  - intros n Hn. apply in_app_or in Hn as [Hn|[<-|[]]]; [apply B4, Hn|lia].
  - intros n [<-|[]]. cbn. auto.
  - intros n [<-|[]]. apply in_or_app. cbn. auto.
  - lia.
  - exists p, w. split; [exact E|]. split; [exact G|]. split; [unfold cluster_number; rewrite N; reflexivity|]. rewrite (gp_count _ _ _ G), W. unfold size in *. lia.
Qed.
Print Assumptions small_graph_correct.

(** ** Graphs *)
(** Whatever the random numbers, the mode and the probabilities, a graph is made as soon as one
    of the number of clusters, the bottom border and the top border is given, and is a good
    project. If it has one cluster, it is a small graph. Otherwise: it has the works up to the
    bottom border and less than 164 more; with a top border it exceeds it by 127 works at most
    (or has 164); with a number of clusters it has one or two more. The clusters are linked
    as the mode says. *)
Theorem graph_correct unit u u' fuel m cc bottom top branching probability :
  unit_draws u -> unit_draws u' -> (0 < cc + bottom + top)%nat -> (0 <= branching)%Q -> (cc + bottom + top < fuel)%nat ->
  exists p w, get_graph unit u u' fuel m cc bottom top branching probability = Some p /\ good_project unit p w /\
    let works := length (pr_works p) in let clusters := cluster_number (pr_works p) in
    (1 <= clusters)%nat /\
    (clusters = 1 -> 30 <= length (wg_nodes w) <= 50)%nat /\
    (2 <= clusters ->
       (0 < bottom -> works < bottom + 164) /\
       (bottom = 0 -> 0 < top -> works <= Nat.max 164 (top + 127)) /\
       (0 < cc -> clusters <= cc + 2) /\
       ((0 < bottom /\ bottom <= works) \/ (0 < top /\ top < works + 164) \/ (0 < cc /\ cc + 1 <= clusters)))%nat /\
    (0 < cc -> bottom = 0 -> top = 0 -> cc + 1 <= clusters)%nat /\
    follows_mode m (pr_works p) (linked (wg_graph w)).
Proof.
  intros U U' Hpos Hb Hf. unfold get_graph. replace (cc + bottom + top =? 0)%nat with false by (symmetry; apply Nat.eqb_neq; lia).
  rewrite (proj2 (Qle_bool_iff 0 branching) Hb). cbn [orb negb]. set (top' := if (0 <? bottom)%nat then O else top).
  assert (T : (0 < bottom /\ top' = 0 \/ bottom = 0 /\ top' = top)%nat) by (subst top'; destruct (Nat.ltb_spec 0 bottom); lia). clearbody top'.
  assert (SO : stages_ok (GS [] [] 0) []) by (split; [exact empty_ok|intros st []]).
  destruct (clusters_made u U fuel m cc bottom top' branching probability [] (GS [] [] 0) SO) as (stages & E1 & (E2 & E3) & E4 & E5 & E6 & E7 & E8); try (unfold size; cbn [gs_works length]; lia).
  change (size (GS [] [] 0)) with O in *. assert (ML := clusters_mode u fuel m cc bottom top' branching U probability [] 0 (GS [] [] 0) stages (or_introl eq_refl) (empty_links m) E1).
  destruct (clusters u fuel m cc bottom top' branching probability [] 0 (GS [] [] 0)) as [result s]. cbn [fst snd] in *. subst result.
  cbn [length] in E4. destruct stages as [|st [|st2 rest]]; [cbn in E4; lia| |].
  - destruct (small_graph_correct unit u' U') as (p & w & A & B & C & D). exists p, w. split; [exact A|]. split; [exact B|]. cbn zeta. rewrite C. split; [lia|]. split; [intros _; exact D|]. split; [lia|].
    split; [unfold stopped in E5; cbn [length] in E5; lia|]. intros i n Hi Hn. exfalso. assert (X : (i < length (handing_stages (pr_works p)))%nat) by (apply nth_error_Some; congruence). unfold cluster_number in C. lia.
  - set (stages := st :: st2 :: rest) in *. set (nodes := concat (map (fun st => road_list (snd st)) stages) ++ map fst stages).
    assert (IN : forall x n, In x stages -> In n (road_list (snd x)) -> In n nodes).
    { intros x n Hx Hn. apply in_or_app. left. apply in_concat. exists (road_list (snd x)). split; [apply in_map_iff; eauto|exact Hn]. }
    assert (Pos : (0 < size s)%nat) by (destruct (E3 st (or_introl eq_refl)); lia).
    destruct (project_made unit s _ _ nodes _ E2) as (p & w & A & B & C & D & J).
    + intros n Hn. apply in_app_or in Hn as [Hn|Hn].
      * apply in_concat in Hn as (l & Hl & Hn). apply in_map_iff in Hl as (x & <- & Hx). destruct (E3 x Hx) as [_ K]. apply (K n). exact Hn.
      * apply in_map_iff in Hn as (x & <- & Hx). destruct (E3 x Hx) as [K _]. exact K.
    + intros n Hn. apply in_map_iff in Hn as (x & <- & Hx). apply (IN x); [exact Hx|cbn; auto].
    + intros n Hn. apply in_or_app. right. exact Hn.
    + exact Pos.
    + exists p, w. split; [exact A|]. split; [exact B|]. cbn zeta. unfold cluster_number. rewrite D, C, map_length. change (length (gs_works s)) with (size s). unfold stopped in E5.
      assert (2 <= length stages)%nat by (subst stages; cbn; lia). clearbody stages. split; [lia|]. split; [lia|]. split; [intros _; lia|]. split; [lia|].
      destruct ML as [_ ML]. intros i n Hi Hn. rewrite C in *. rewrite D in *. specialize (ML i n Hi Hn). destruct m.
      * destruct ML as (road & (x & X & Y) & Z). exists road, x. auto.
      * destruct ML as (f & X & Z). exists f. auto.
      * destruct ML as (f & X & Z). exists f. auto.
Qed.
Print Assumptions graph_correct.

(** ** Scheduling what was generated *)
(** The default pipeline, with contractors generated for the graph, schedules every generated
    project: no chains, hence no circular dependency of chains, and workers for every work. *)
Definition no_spec : nat -> work_spec := fun _ => WSpec [] [] None false.
Lemma legal_no_chain unit works w x y : legal_graph unit works w -> ~ inseparable (wg_graph w) x y.
Proof. intros L (e & He & T & _). destruct (lg_types _ _ _ L e He) as [[T'|T'] _]; congruence. Qed.
Theorem generated_graph_scheduled unit p w table prio apt method number scaler :
  good_project unit p w -> (forall q, (0 <= q)%Q -> 0 <= unit q) ->
  (forall k, exists f, table k = Some f /\ forall c, (1 <= f c)%Q) ->
  0 <= apt -> 2 * (apt + (Z.of_nat (length (pr_works p)) + 3) * 4501) < TIME_INF ->
  (1 <= number)%nat -> (1 <= scaler)%Q ->
  let g := wg_graph w in let nodes := wg_nodes w in
  exists cs sd s, pipeline_schedule (length nodes) g nodes prio (Generate method number scaler)
      (fun prio' cs => heft_end_default g nodes (default_estimator table g) prio' cs no_spec apt) = Scheduled sd s /\
    pipeline_contractors g nodes (Generate method number scaler) = Some cs /\ length cs = number /\ feasible g cs no_spec nodes sd /\
    forall e wu wv, In e (g_edges g) -> In (e_from e, wu) sd -> In (e_to e, wv) sd -> sw_finish wu <= sw_start wv.
Proof.
  intros [_ L GW Cn] Hunit Htab Hapt Hinf Hnum Hsc. cbn zeta. set (g := wg_graph w). set (nodes := wg_nodes w).
  assert (NI : forall x y, ~ inseparable g x y) by (intros x y; apply (legal_no_chain _ _ _ x y L)).
  assert (NC : forall x y, path0 (inseparable g) x y -> x = y). { intros x y P. induction P as [x y P|x|x y z P1 IH1 P2 IH2]; [destruct (NI _ _ P)|reflexivity|congruence]. }
  assert (OkG : graph_ok g nodes) by apply L.
  assert (Units : forall n, g_unit g n = WU true [] 0 \/ exists x, In x (pr_works p) /\ g_unit g n = WU false (gw_reqs x) (unit (gw_volume x))).
  { intros n. destruct (nth_error (pr_works p) n) as [x|] eqn:E; [right; exists x; split; [eapply nth_error_In; exact E|apply (lg_works _ _ _ L n x E)]|left].
    apply nth_error_None in E. apply (lg_service _ _ _ L), E. }
  assert (Good : forall n r, In r (u_reqs (g_unit g n)) -> good_req r).
  { intros n r Hr. destruct (Units n) as [E|(x & Hx & E)]; rewrite E in Hr; cbn in Hr; [destruct Hr|]. rewrite Forall_forall in GW. destruct (GW x Hx) as [(_ & _ & F) _]. rewrite Forall_forall in F. apply F, Hr. }
  assert (PO : pipeline_ok g nodes table prio no_spec apt 4500 0).
  { constructor.
    - exact OkG.
    - intros x y X. destruct (NI _ _ X).
    - intros n. destruct (Units n) as [E|(x & Hx & E)]; rewrite E; cbn [u_reqs]; [split; constructor|]. rewrite Forall_forall in GW. destruct (GW x Hx) as [(_ & N & F) _]. split; [exact N|].
      eapply Forall_impl; [|exact F]. intros r [R _]. lia.
    - intros n. unfold volume_of. destruct (Units n) as [E|(x & Hx & E)]; rewrite E; cbn [u_volume]; [lia|]. apply Hunit. rewrite Forall_forall in GW. apply (GW x Hx).
    - intros n c m r Hc Hm Hr. assert (Eson : inseparable_son g n = None).
      { destruct (inseparable_son g n) as [y|] eqn:E; [|reflexivity]. exfalso. unfold chain_of in Hc. apply (NI n y). apply son_some, E. }
      unfold chain_of in Hc. rewrite Eson in Hc. injection Hc as <-. destruct Hm as [<-|[]]. exists r. split; [exact Hr|]. split; [reflexivity|lia].
    - intros h m _ P. rewrite (NC h m P). reflexivity.
    - intros n Hs. destruct (Units n) as [E|(x & Hx & E)]; rewrite E in *; [reflexivity|discriminate].
    - intros e He T. destruct (lg_types _ _ _ L e He) as [_ ->]. lia.
    - exact Hapt.
    - intros n r c Hr. destruct (Htab (r_kind r)) as (f & Ef & Hf). exists f. split; [exact Ef|]. specialize (Hf c). split; [lra|]. destruct (Good n r Hr) as [_ [V1 V2]].
      apply Qle_trans with (inject_Z 4500); [rewrite <- Zle_Qle; exact V2|]. change (inject_Z 4500) with 4500%Q. lra.
    - split; [lia|]. split; [lia|]. split; [intros e He; destruct (lg_types _ _ _ L e He) as [_ ->]; lia|]. unfold nodes. rewrite Cn. lia. }
  destruct (pipeline_with_generated_contractors (length nodes) g nodes table prio no_spec apt 4500 0 method number scaler PO (le_n _)) as [(cs & sd & s & A1 & A2 & A3 & A4 & A5)|(_ & h & P)];
    [intros n; cbn; auto|exact Hnum|exact Hsc| |].
  - exists cs, sd, s. split; [exact A3|]. split; [exact A1|]. split; [exact A2|]. split; [exact A4|]. intros e wu wv He H1 H2. specialize (A5 e wu wv He H1 H2).
    destruct (lg_types _ _ _ L e He) as [_ Z0]. rewrite Z0 in A5. destruct (fs_times _ _ _ _ _ A4 _ _ H1) as [[F1 F2] F3].
    eapply Z.le_trans; [|exact A5]. unfold tadd, set_time. rewrite Z.add_0_r. repeat match goal with |- context [if ?b then _ else _] => destruct b eqn:? end; lia.
  - exfalso. apply (gk_acyclic _ _ OkG h). clear - P NC. set (h' := h) in P at 2 |- * at 2. clearbody h'. induction P as [x y (_ & _ & _ & a & b & D & C1 & C2)|x y z P1 IH1 P2 IH2].
    + apply NC in C1, C2. subst. apply t_step, D.
    + eapply t_trans; eassumption.
Qed.
Print Assumptions generated_graph_scheduled.

(** ** Findings *)
(** A number of clusters is always exceeded. *)
Theorem clusters_exceed_request unit u u' fuel m cc branching probability p :
  unit_draws u -> unit_draws u' -> (0 < cc)%nat -> (0 <= branching)%Q -> (cc < fuel)%nat ->
  get_graph unit u u' fuel m cc 0 0 branching probability = Some p -> (cc < cluster_number (pr_works p))%nat.
Proof.
  intros U U' Hc Hb Hf E. destruct (graph_correct unit u u' fuel m cc 0 0 branching probability U U' ltac:(lia) Hb ltac:(lia)) as (p' & w & E' & _ & X). cbn zeta in X.
  rewrite E in E'. injection E' as <-. lia.
Qed.
Print Assumptions clusters_exceed_request.
(** With a bottom border of 60 the graph may have 50 vertices or less: one cluster reaches
    the border and is then replaced by a small graph. *)
Definition constant (q : Q) : nat -> Q := fun _ => q.
Lemma constant_draws q : (0 <= q)%Q -> (q < 1)%Q -> unit_draws (constant q).
Proof. intros H1 H2 n. split; assumption. Qed.
Definition works_of (r : option project) : option nat := option_map (fun p => length (pr_works p)) r.
Theorem bottom_border_missed : exists u, unit_draws u /\ forall unit u' m, unit_draws u' ->
  exists n, works_of (get_graph unit u u' 61 m 0 60 0 (1 # 2) (1 # 4)) = Some n /\ (n <= 48)%nat.
Proof.
  exists (constant (9 # 10)). split; [apply constant_draws; reflexivity || discriminate|]. intros unit u' m U'.
  destruct (small_graph_correct unit u' U') as (p & w & A & B & _ & D). exists (length (pr_works p)). split; [|rewrite (gp_count _ _ _ B) in D; lia].
  unfold get_graph. cbn -[clusters get_small_graph].
  assert (X : match fst (clusters (constant (9 # 10)) 61 m 0 60 0 (1 # 2) (1 # 4) [] 0 (GS [] [] 0)) with Some [_] => True | _ => False end) by (destruct m; vm_compute; exact I).
  destruct (clusters (constant (9 # 10)) 61 m 0 60 0 (1 # 2) (1 # 4) [] 0 (GS [] [] 0)) as [[[|st [|]]|] s]; cbn [fst] in X; try contradiction. rewrite A. reflexivity.
Qed.
Print Assumptions bottom_border_missed.
(** That small graph does not follow from the seed. *)
Theorem seed_ignored : exists u u1 u2, unit_draws u /\ unit_draws u1 /\ unit_draws u2 /\ forall unit m,
  works_of (get_graph unit u u1 61 m 0 60 0 (1 # 2) (1 # 4)) = Some 28%nat /\ works_of (get_graph unit u u2 61 m 0 60 0 (1 # 2) (1 # 4)) = Some 48%nat.
Proof.
  exists (constant (9 # 10)), (constant 0), (constant (99 # 100)). repeat (split; [apply constant_draws; reflexivity || discriminate|]). intros unit m. split; destruct m; vm_compute; reflexivity.
Qed.
Print Assumptions seed_ignored.
(** A top border of 80 works is exceeded: the size of the next cluster is guessed to be that of
    the last one. *)
Definition small_then_large : nat -> Q := fun n => if (n <? 15)%nat then (1 # 100)%Q else (99 # 100)%Q.
Theorem top_border_exceeded : exists u, unit_draws u /\ forall unit u' m, exists n, works_of (get_graph unit u u' 81 m 0 0 80 (1 # 2) 0) = Some n /\ (n > 80)%nat.
Proof.
  exists small_then_large. split; [intros n; unfold small_then_large; destruct (n <? 15)%nat; split; reflexivity || discriminate|].
  intros unit u' m. eexists. split; [destruct m; vm_compute; reflexivity|lia].
Qed.
Print Assumptions top_border_exceeded.

(** ** Examples *)
(** The hypotheses are met, for a small graph and for one of three clusters. *)
Example small_graph_example : unit_draws (constant (1 # 2)) /\ works_of (get_small_graph (fun q => Qfloor (q * 100)) (constant (1 # 2))) = Some 38%nat.
Proof. split; [apply constant_draws; reflexivity || discriminate|vm_compute; reflexivity]. Qed.
Example graph_example :
  match get_graph (fun q => Qfloor (q * 100)) (constant (1 # 2)) (constant (1 # 2)) 4 Sequential 2 0 0 (1 # 2) (1 # 4) with
  | Some p => (length (pr_works p), cluster_number (pr_works p)) = (186, 3)%nat /\ match pr_graph p with Ends w => length (wg_nodes w) = 188%nat | Running => False end
  | None => False
  end.
Proof. vm_compute. split; reflexivity. Qed.
Example scheduled_example : exists p w, get_small_graph (fun q => Qfloor (q * 100)) (constant (1 # 2)) = Some p /\ good_project (fun q => Qfloor (q * 100)) p w /\
  (forall q, (0 <= q)%Q -> 0 <= Qfloor (q * 100)) /\ 2 * (0 + (Z.of_nat (length (pr_works p)) + 3) * 4501) < TIME_INF.
Proof.
  destruct (small_graph_correct (fun q => Qfloor (q * 100)) (constant (1 # 2))) as (p & w & A & B & _ & D); [apply constant_draws; reflexivity || discriminate|]. exists p, w. split; [exact A|]. split; [exact B|].
  split; [|rewrite (gp_count _ _ _ B) in D; change TIME_INF with 2000000000; lia].
  intros q Hq. change 0 with (Qfloor 0). apply Qfloor_resp_le. lra.
Qed.
