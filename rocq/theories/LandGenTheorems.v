(** C114: what the landscape generated for a work graph is. *)
From Coq Require Import ZArith List Bool Permutation Relations Arith Lia.
From Verif Require Import TimeModel MomentumModel GraphModel ScheduleSpec Digraph TopoModel TopoProofs TopoTheorems HeadModel HeadProofs HeadTheorems LandscapeModel LandscapeProofs LandscapeTheorems LandGenModel LandGenSpec LandGenProofs.
Import ListNotations.
Local Open Scope Z_scope.

Section Generated.
  Variables (g : graph) (nodes : list nat) (needs : nat -> list (nat * Z)) (P H : nat).
  Variables (count : nat -> nat -> nat) (pick : nat -> nat -> nat -> nat) (shuffle : list nat -> list nat).
  Hypothesis Hnd : NoDup nodes.
  Hypothesis Hcl : forall e, In e (g_edges g) -> In (e_from e) nodes /\ In (e_to e) nodes.
  Hypothesis Hwf : chains_wf g.
  Hypothesis HP : (1 <= P)%nat.
  Hypothesis HH : (1 <= H)%nat.
  Hypothesis Hc : fair_count count.
  Hypothesis Hp : fair_choice pick.
  Hypothesis Hs : fair_shuffle shuffle.

  (** The generator ends with a site. Any two of its nodes are connected by roads, whose lengths
      are positive multiples of 50, and the routes can be built. Each chain of works is on one
      platform, if its head is no service unit, and no platform gets more than its share of heads.
      Each platform stores, and each holder has vertex_count times, the largest need of each material. *)
  Theorem landscape_generated : exists s, get_landscape_by_wg g nodes needs P H count pick shuffle = Built s /\
    good_site nodes P H s /\ placed_once g nodes P (st_works s) /\
    (forall p, (length (heads_on g (st_works s) p) <= length (filter (fun n => match inseparable_parent g n with None => true | Some _ => false end) nodes) / P + 1)%nat) /\
    (length (st_storage s) = P /\ forall st, In st (st_storage s) -> NoDup (map fst st) /\
       forall m cap, In (m, cap) st <-> exists c, largest needs nodes m c /\ cap = Z.max c 1) /\
    (map wh_node (st_holders s) = seq P H /\ forall w, In w (st_holders s) ->
       NoDup (map fst (wh_stock w)) /\
       (forall m n, In (m, n) (wh_stock w) <-> exists c, largest needs nodes m c /\ n = Z.max c 1 * Z.of_nat (length nodes)) /\
       length (wh_vehicles w) = 20%nat /\
       forall v, In v (wh_vehicles w) -> NoDup (map fst v) /\ forall m n, In (m, n) v <-> exists c, largest needs nodes m c /\ n = c / 2).
  Proof.
    destruct (works_placed g nodes Hnd Hcl Hwf P shuffle HP Hs) as (works & Ew & Hpl & Hb).
    assert (I := all_inv nodes P H count pick HP Hc Hp _ (platforms_inv nodes P count pick HP Hc Hp)).
    assert (G := inv_good nodes P H pick HP _ HH I (repeat (platform_storage nodes needs) P) works (map (holder nodes needs P H) (seq 0 H))).
    destruct (max_rep needs nodes) as [Nm Gm].
    unfold get_landscape_by_wg. destruct (Nat.eqb_spec P 0) as [Z0|_]; [lia|]. rewrite Ew.
    assert (R := gs_routes _ _ _ _ G). destruct R as (r & R). unfold land, build_routes in R. cbn [st_roads] in R.
    destruct (all_have_roads _ _) eqn:Ea; [|discriminate]. eexists. split; [reflexivity|]. split; [exact G|]. split; [exact Hpl|]. split; [exact Hb|].
    assert (Kn : forall (f : nat -> Z) m x, In (m, x) (map (fun m => (m, f m)) (names nodes needs)) <-> (exists c, largest needs nodes m c) /\ x = f m).
    { intros f m x. rewrite in_map_iff, <- names_in. split; [intros (m' & E & K); injection E as -> <-; auto|intros [K ->]; eauto]. }
    split; [split|].
    - cbn [st_storage]. apply repeat_length.
    - cbn [st_storage]. intros st K. apply repeat_spec in K. subst st. unfold platform_storage. split; [rewrite map_map, map_id; exact Nm|].
      intros m cap. rewrite (Kn (fun m => Z.max (maximum nodes needs m) 1)). split; [intros ((c & K) & ->); exists c; rewrite (maximum_is _ _ _ _ K); auto|intros (c & K & ->); rewrite (maximum_is _ _ _ _ K); eauto].
    - cbn [st_holders]. split.
      + rewrite map_map. cbn [holder wh_node]. clear. revert P. induction H as [|h IH]; intros P; [reflexivity|]. cbn [seq map]. rewrite Nat.add_0_r. f_equal. rewrite <- seq_shift, map_map, <- (IH (S P)). apply map_ext. intros; lia.
      + intros w K. apply in_map_iff in K as (i & <- & K). apply in_seq in K. unfold holder. cbn [wh_stock wh_vehicles]. rewrite holder_names_all by lia.
        split; [rewrite map_map, map_id; exact Nm|]. split; [|split; [apply repeat_length|]].
        * intros m n. rewrite (Kn (fun m => Z.max (maximum nodes needs m) 1 * vertex_count nodes)). unfold vertex_count. split; [intros ((c & K') & ->); exists c; rewrite (maximum_is _ _ _ _ K'); auto|intros (c & K' & ->); rewrite (maximum_is _ _ _ _ K'); eauto].
        * intros v Kv. apply repeat_spec in Kv. subst v. rewrite map_map. cbn [fst]. split; [exact Nm|]. intros m n. rewrite in_map_iff. split.
          -- intros ([m' c] & E & K'). injection E as -> <-. exists c. split; [apply Gm, get_in; assumption|reflexivity].
          -- intros (c & K' & ->). exists (m, c). split; [reflexivity|]. apply get_in; [exact Nm|apply Gm, K'].
  Qed.

  (** What any one work needs of a material fits into each platform; each holder alone has enough
      for all works, and its vehicles together carry what any work needs, if that is at least 2 for
      some work. *)
  Theorem supplies_suffice s n m c : get_landscape_by_wg g nodes needs P H count pick shuffle = Built s ->
    (forall n, In n nodes -> NoDup (map fst (needs n))) -> In n nodes -> In (m, c) (needs n) ->
    (forall st, In st (st_storage s) -> exists cap, In (m, cap) st /\ c <= cap) /\
    (forall w, In w (st_holders s) -> exists stock, In (m, stock) (wh_stock w) /\ total_need needs nodes m <= stock) /\
    ((exists n' c', In n' nodes /\ In (m, c') (needs n') /\ 2 <= c') -> forall w, In w (st_holders s) -> exists load,
       (forall v, In v (wh_vehicles w) -> In (m, load) v) /\ 0 < load /\ c <= load * Z.of_nat (length (wh_vehicles w))).
  Proof.
    intros E Nn Hn Hm. destruct landscape_generated as (s' & E' & _ & _ & _ & (_ & A) & (_ & B)). rewrite E in E'. injection E' as <-.
    destruct (needed_largest needs nodes m c) as (L & [L1 L2] & Lc); [exists n; auto|]. assert (LL : largest needs nodes m L) by (split; assumption). split; [|split].
    - intros st K. destruct (A st K) as [_ A']. exists (Z.max L 1). split; [apply A'; eauto|lia].
    - intros w K. destruct (B w K) as (_ & B' & _). exists (Z.max L 1 * Z.of_nat (length nodes)). split; [apply B'; eauto|]. apply total_le; [exact Nn| |lia]. intros c' F. apply L2 in F. lia.
    - intros (n' & c' & H1 & H2 & H3) w K. destruct (B w K) as (_ & _ & B1 & B2). assert (L' : 2 <= L) by (assert (c' <= L) by (apply L2; exists n'; auto); lia).
      exists (L / 2). rewrite B1. split; [intros v Kv; apply (B2 v Kv); eauto|]. assert (D := Z.div_mod L 2 ltac:(lia)). assert (M := Z.mod_pos_bound L 2 ltac:(lia)). lia.
  Qed.

  (** Finding: if no work needs more than one of a material, the vehicles carry none of it. *)
  Theorem vehicles_empty s n m : get_landscape_by_wg g nodes needs P H count pick shuffle = Built s -> In n nodes -> In (m, 1) (needs n) ->
    (forall n' c', In n' nodes -> In (m, c') (needs n') -> c' <= 1) -> forall w v, In w (st_holders s) -> In v (wh_vehicles w) -> In (m, 0) v.
  Proof.
    intros E Hn Hm Hall w v Kw Kv. destruct landscape_generated as (s' & E' & _ & _ & _ & _ & (_ & B)). rewrite E in E'. injection E' as <-.
    destruct (B w Kw) as (_ & _ & _ & B2). apply (B2 v Kv). exists 1. split; [|reflexivity]. split; [exists n; auto|]. intros c' (n' & A1 & A2). eauto.
  Qed.

  (** Finding: a work in a chain that begins with a service unit is on no platform. *)
  Theorem service_chains_unplaced s h v : get_landscape_by_wg g nodes needs P H count pick shuffle = Built s -> is_head g nodes h -> u_service (g_unit g h) = true -> in_chain g h v ->
    forall p, ~ In (v, p) (st_works s).
  Proof.
    intros E Hh Hsv Hv p K. destruct landscape_generated as (s' & E' & _ & Q & _). rewrite E in E'. injection E' as <-.
    apply (in_map fst) in K. apply (po_all _ _ _ _ Q) in K as (h' & A & B & C). assert (F : h' = h) by (apply (head_unique g Hwf h' h v); auto; [apply A|apply Hh]). congruence.
  Qed.
End Generated.
Print Assumptions landscape_generated.
Print Assumptions supplies_suffice.
Print Assumptions vehicles_empty.
Print Assumptions service_chains_unplaced.

(** Finding: for a work graph of one vertex, log(1) = 0 gives no platform. *)
Theorem no_platform_fails g nodes needs H count pick shuffle : get_landscape_by_wg g nodes needs 0 H count pick shuffle = ZeroDivisionError.
Proof. reflexivity. Qed.
Print Assumptions no_platform_fails.

Section Distinct.
  Variables (g : graph) (nodes : list nat) (needs : nat -> list (nat * Z)) (P H : nat).
  Variables (count : nat -> nat -> nat) (pick : nat -> nat -> nat -> nat) (shuffle : list nat -> list nat).
  (** If the neighbours drawn for a node are distinct, there is at most one road between two
      nodes, and the table of routes holds the shortest distances. *)
  Theorem distinct_draws_exact s : (1 <= P)%nat -> fair_count count -> fair_choice pick ->
    distinct_choice pick -> get_landscape_by_wg g nodes needs P H count pick shuffle = Built s ->
    good_roads (P + H) (land s) /\
    forall dist path, build_routes (P + H) (land s) = Some (dist, path) -> forall u v, (u < P + H)%nat -> (v < P + H)%nat -> u <> v ->
      exists d ids, dist u v = Some d /\ get_route (P + H) (land s) path u v = Some (map Some ids) /\ route (land s) (fun _ => True) u v ids d /\
        forall ids' d', route (land s) (fun _ => True) u v ids' d' -> d <= d'.
  Proof.
    intros HP Hc Hp D E.
    assert (I := all_inv nodes P H count pick HP Hc Hp _ (platforms_inv nodes P count pick HP Hc Hp)).
    unfold get_landscape_by_wg in E. destruct (Nat.eqb P 0); [discriminate|]. destruct (place_all _ _); [|discriminate]. destruct (all_have_roads _ _); [|discriminate]. injection E as <-.
    unfold land. cbn [st_roads]. assert (G := inv_simple nodes P H pick HP _ I D). split; [exact G|].
    intros dist path R u v Hu Hv N. assert (X := routes_exact _ _ _ _ G R u v).
    assert (C := inv_conn nodes P pick HP _ _ I ltac:(lia)). destruct (conn_trans _ u (P - 1) v (C u Hu) (conn_sym _ _ _ (C v Hv))) as [F|(ids & d & F)]; [contradiction|].
    destruct (dist u v) as [d'|]; [|exfalso; apply (X _ _ F)]. destruct X as ((ids' & X1 & X2) & X3). exists d', ids'. auto.
  Qed.
End Distinct.
Print Assumptions distinct_draws_exact.

(** A project of six works: 0 and 5 are service units, 2 follows 1 without a gap. *)
Definition lx_graph : graph :=
  Gr [Ed 0 1 0 FS; Ed 1 2 0 IFS; Ed 0 3 0 FS; Ed 2 4 0 FS; Ed 3 4 0 FS; Ed 4 5 0 FS] (fun n => WU (Nat.eqb n 0 || Nat.eqb n 5) [] 1).
Definition lx_needs (n : nat) : list (nat * Z) :=
  match n with 1%nat => [(7%nat, 3); (8%nat, 1)] | 3%nat => [(7%nat, 5)] | _ => [] end.
Example landscape_example :
  NoDup [0; 1; 2; 3; 4; 5]%nat /\ chains_wf lx_graph /\
  (forall e, In e (g_edges lx_graph) -> In (e_from e) [0; 1; 2; 3; 4; 5]%nat /\ In (e_to e) [0; 1; 2; 3; 4; 5]%nat) /\
  (fair_count (fun _ hi => hi) /\ fair_choice (fun _ j k => if Nat.ltb j k then j else 0%nat) /\ distinct_choice (fun _ j k => if Nat.ltb j k then j else 0%nat) /\ fair_shuffle (fun l => l)) /\
  get_landscape_by_wg lx_graph [0; 1; 2; 3; 4; 5]%nat lx_needs 2 2 (fun _ hi => hi) (fun _ j k => if Nat.ltb j k then j else 0%nat) (fun l => l) =
    Built (Site [((0%nat, 1%nat, 50), 6); ((2%nat, 0%nat, 50), 12); ((2%nat, 1%nat, 100), 12); ((3%nat, 2%nat, 50), 12); ((3%nat, 0%nat, 100), 12); ((3%nat, 1%nat, 150), 12)]
      [[(7%nat, 5); (8%nat, 1)]; [(7%nat, 5); (8%nat, 1)]] [(1, 1); (2, 1); (3, 0); (4, 1)]%nat
      [Wh 2 [(7%nat, 30); (8%nat, 6)] (repeat [(7%nat, 2); (8%nat, 0)] 20); Wh 3 [(7%nat, 30); (8%nat, 6)] (repeat [(7%nat, 2); (8%nat, 0)] 20)]).
Proof.
  split; [repeat constructor; cbn; intuition lia|]. split; [|split; [|split]].
  - assert (K : forall x y, inseparable lx_graph x y -> x = 1%nat /\ y = 2%nat).
    { intros x y (e & He & Ht & <- & <-). simpl in He. repeat destruct He as [<-|He]; simpl in *; try discriminate; auto. destruct He. }
    split; [|split].
    + intros x x' y A B. apply K in A, B. lia.
    + intros x y y' A B. apply K in A, B. lia.
    + intros x. assert (G : forall a b, path (inseparable lx_graph) a b -> (a < b)%nat).
      { induction 1 as [a b Hab|a b c _ IH1 _ IH2]; [apply K in Hab; lia|lia]. }
      intros Hx. apply G in Hx. lia.
  - intros e He. simpl in He. repeat destruct He as [<-|He]; simpl; try tauto.
  - split; [intros x hi Hh; lia|]. split; [intros x j k Hk; destruct (Nat.ltb_spec j k); lia|]. split; [|intros l; reflexivity].
    intros x k j j' Hj Hj' E. apply Nat.ltb_lt in Hj, Hj'. rewrite Hj, Hj' in E. exact E.
  - vm_compute. reflexivity.
Qed.

(** Finding: rnd.choices may draw a neighbour twice. Then two roads of lengths 50 and 100 join the
    same nodes, and the table of routes holds 100 although a road of 50 exists. *)
Theorem twice_drawn_neighbour : exists count pick shuffle s dist path,
  fair_count count /\ fair_choice pick /\ fair_shuffle shuffle /\
  get_landscape_by_wg lx_graph [0; 1; 2; 3; 4; 5]%nat lx_needs 2 2 count pick shuffle = Built s /\
  build_routes 4 (land s) = Some (dist, path) /\ joined (land s) 1 2 0 50 /\ joined (land s) 2 2 0 100 /\ dist 2%nat 0%nat = Some 100.
Proof.
  exists (fun _ hi => hi), (fun _ _ _ => 0%nat), (fun l => l).
  set (b := get_landscape_by_wg lx_graph [0; 1; 2; 3; 4; 5]%nat lx_needs 2 2 (fun _ hi => hi) (fun _ _ _ => 0%nat) (fun l => l)).
  set (s := match b with Built s => s | _ => Site [] [] [] [] end). set (r := match build_routes 4 (land s) with Some r => r | None => (fun _ _ => None, fun _ _ => 0) end).
  exists s, (fst r), (snd r). split; [intros x hi Hh; lia|]. split; [intros x j k Hk; exact Hk|]. split; [intros l; reflexivity|].
  split; [unfold s; vm_compute; reflexivity|]. split.
  - unfold r. rewrite <- surjective_pairing. assert (E : exists q, build_routes 4 (land s) = Some q) by (unfold build_routes; assert (A : all_have_roads 4 (land s) = true) by (vm_compute; reflexivity); rewrite A; eauto).
    destruct E as (q & E). rewrite E. reflexivity.
  - split; [left; vm_compute; reflexivity|]. split; [left; vm_compute; reflexivity|]. vm_compute. reflexivity.
Qed.
Print Assumptions twice_drawn_neighbour.
