(** C37: routes between the nodes of a land graph. *)
From Coq Require Import ZArith List Bool Lia Permutation Sorted.
From Verif Require Import TopoModel TopoProofs StableSort LandscapeModel LandscapeProofs.
Import ListNotations.
Local Open Scope Z_scope.

(** ** The heap *)
Lemma pop_min_spec l : match pop_min l with
  | None => l = []
  | Some (m, rest) => Permutation l (m :: rest) /\ forall x, In x l -> fst m <= fst x end.
Proof.
  induction l as [|x r IH]; cbn [pop_min]; [reflexivity|]. destruct (pop_min r) as [[m rest]|].
  - destruct IH as [P M]. unfold pair_lt. destruct (Z.ltb_spec (fst m) (fst x)); cbn [orb].
    + split; [rewrite P; apply perm_swap|]. intros y [<-|Hy]; [lia|auto].
    + destruct (Z.eqb_spec (fst m) (fst x)); cbn [andb].
      * destruct (Nat.ltb (snd m) (snd x)).
        -- split; [rewrite P; apply perm_swap|]. intros y [<-|Hy]; [lia|auto].
        -- split; [constructor; exact P|]. intros y [<-|Hy]; [lia|]. specialize (M y Hy). lia.
      * split; [constructor; exact P|]. intros y [<-|Hy]; [lia|]. specialize (M y Hy). lia.
  - subst r. split; [reflexivity|]. intros y [<-|[]]. lia.
Qed.

Section Dijkstra.
  Variables (n : nat) (joins : list (nat * nat * Z)) (avail : list nat) (s : nat).
  Hypothesis G : good_roads n joins.
  Hypothesis Hs : (s < n)%nat.
  Notation A := (fun k => In k avail).

  Record dinv (S : list nat) (H : list (Z * nat)) (D : nat -> option Z) (P : nat -> Z) : Prop := {
    di_src : D s = Some 0;
    di_from : forall v d, D v = Some d -> (v < n)%nat /\ 0 <= d /\ (v = s \/
      exists p k w dp, P v = Z.of_nat p /\ A k /\ joined joins k p v w /\ D p = Some dp /\ dp + w = d /\ In p S);
    di_settled : forall v, In v S -> exists d, D v = Some d;
    di_heap : forall v d, D v = Some d -> ~ In v S -> In (d, v) H;
    di_bound : forall d v, In (d, v) H -> exists dv, D v = Some dv /\ dv <= d /\ (In v S -> dv < d);
    di_least : forall v dv d x, In v S -> D v = Some dv -> In (d, x) H -> dv <= d;
    di_nodup : NoDup H;
    di_none : forall v, D v = None -> P v = first_row joins avail s v
  }.
  (** all available roads of [v] in [rs] have been taken into account *)
  Definition relaxed (D : nat -> option Z) (v : nat) (rs : list road) : Prop :=
    forall r dv, In r rs -> A (rd_id r) -> D v = Some dv -> exists dx, D (rd_finish r) = Some dx /\ dx <= dv + rd_weight r.
  Definition grows (D D' : nat -> option Z) (S : list nat) : Prop :=
    (forall v, In v S -> D' v = D v) /\ (forall x d, D x = Some d -> exists d', D' x = Some d' /\ d' <= d).
  Lemma grows_refl D S : grows D D S.
  Proof. split; [reflexivity|]. intros x d Hx. exists d. split; [exact Hx|lia]. Qed.
  Lemma grows_trans D1 D2 D3 S : grows D1 D2 S -> grows D2 D3 S -> grows D1 D3 S.
  Proof.
    intros [A1 A2] [B1 B2]. split; [intros v Hv; rewrite (B1 v Hv); apply A1, Hv|].
    intros x d Hx. destruct (A2 x d Hx) as (d' & H1 & H2). destruct (B2 x d' H1) as (d'' & H3 & H4). exists d''. split; [exact H3|lia].
  Qed.
  Lemma relaxed_grows D D' S v rs : grows D D' S -> In v S -> relaxed D v rs -> relaxed D' v rs.
  Proof.
    intros [A1 A2] Hv R r dv Hr Hk Hdv. rewrite (A1 v Hv) in Hdv. destruct (R r dv Hr Hk Hdv) as (dx & H1 & H2).
    destruct (A2 _ _ H1) as (d' & H3 & H4). exists d'. split; [exact H3|lia].
  Qed.

  Lemma relax_inv S v dist st r : In v S -> ds_dist st v = Some dist -> (forall y dy, In y S -> ds_dist st y = Some dy -> dy <= dist) ->
    In r (roads_of joins v) -> dinv S (ds_heap st) (ds_dist st) (ds_path st) ->
    let st' := relax avail dist v st r in
    dinv S (ds_heap st') (ds_dist st') (ds_path st') /\ grows (ds_dist st) (ds_dist st') S /\ relaxed (ds_dist st') v [r] /\ (length (ds_heap st') <= 1 + length (ds_heap st))%nat.
  Proof.
    intros Hv Hdv Hle Hr I. cbv zeta. apply roads_of_in in Hr. set (x := rd_finish r) in *. set (w := rd_weight r) in *. set (k := rd_id r) in *.
    assert (Hw := gr_pos _ _ G _ _ _ _ Hr). assert (Hrng := gr_range _ _ G _ _ _ _ Hr).
    destruct (di_from _ _ _ _ I v dist Hdv) as (_ & Hd0 & _).
    unfold relax. fold k x w. destruct (mem k avail) eqn:Em; cbn [negb].
    2: { split; [exact I|]. split; [apply grows_refl|]. split; [|lia]. intros r' dv [<-|[]] Hk _. apply mem_nin in Em. contradiction. }
    apply mem_in in Em.
    destruct (match ds_dist st x with None => true | Some z => dist + w <? z end) eqn:C.
    2: { destruct (ds_dist st x) as [z|] eqn:Ex; [|discriminate]. apply Z.ltb_ge in C.
         split; [exact I|]. split; [apply grows_refl|]. split; [|lia]. intros r' dv [<-|[]] Hk Hdv'. rewrite Hdv in Hdv'. injection Hdv' as <-. exists z. auto. }
    cbn [ds_heap ds_dist ds_path].
    assert (Hx : ~ In x S).
    { intros Hin. destruct (di_settled _ _ _ _ I x Hin) as [z Hz]. rewrite Hz in C. apply Z.ltb_lt in C. specialize (Hle x z Hin Hz). lia. }
    assert (Hxs : x <> s). { intros E. rewrite E, (di_src _ _ _ _ I) in C. apply Z.ltb_lt in C. lia. }
    assert (Vx : vset (ds_dist st) x (Some (dist + w)) x = Some (dist + w)) by (unfold vset; now rewrite Nat.eqb_refl).
    assert (Vo : forall y, y <> x -> vset (ds_dist st) x (Some (dist + w)) y = ds_dist st y) by (intros y Hy; unfold vset; destruct (Nat.eqb_spec y x); [contradiction|reflexivity]).
    assert (Po : forall y, y <> x -> vset (ds_path st) x (Z.of_nat v) y = ds_path st y) by (intros y Hy; unfold vset; destruct (Nat.eqb_spec y x); [contradiction|reflexivity]).
    assert (VS : forall y, In y S -> vset (ds_dist st) x (Some (dist + w)) y = ds_dist st y) by (intros y Hy; apply Vo; intros ->; contradiction).
    assert (Hlt : forall z, ds_dist st x = Some z -> dist + w < z) by (intros z Hz; rewrite Hz in C; apply Z.ltb_lt in C; exact C).
    split; [|split; [|split]].
    - constructor.
      + rewrite Vo by auto. apply (di_src _ _ _ _ I).
      + intros y d Hy. destruct (Nat.eq_dec y x) as [->|Hne].
        * rewrite Vx in Hy. injection Hy as <-. split; [apply Hrng|]. split; [lia|]. right. exists v, k, w, dist.
          unfold vset at 1. rewrite Nat.eqb_refl. rewrite VS by exact Hv. auto 10.
        * rewrite Vo in Hy by exact Hne. destruct (di_from _ _ _ _ I y d Hy) as (H1 & H2 & H3). split; [exact H1|]. split; [exact H2|].
          destruct H3 as [H3|(p & k' & w' & dp & H3 & H4 & H5 & H6 & H7 & H8)]; [left; exact H3|right]. exists p, k', w', dp.
          rewrite Po by exact Hne. rewrite VS by exact H8. auto 10.
      + intros y Hy. rewrite VS by exact Hy. apply (di_settled _ _ _ _ I y Hy).
      + intros y d Hy Hn. destruct (Nat.eq_dec y x) as [->|Hne]; [rewrite Vx in Hy; injection Hy as <-; left; reflexivity|].
        rewrite Vo in Hy by exact Hne. right. apply (di_heap _ _ _ _ I y d Hy Hn).
      + intros d y [[= <- <-]|Hy].
        * exists (dist + w). split; [exact Vx|]. split; [lia|]. intros H. contradiction.
        * destruct (di_bound _ _ _ _ I d y Hy) as (dv & H1 & H2 & H3). destruct (Nat.eq_dec y x) as [->|Hne].
          -- exists (dist + w). split; [exact Vx|]. specialize (Hlt dv H1). split; [lia|]. intros H; contradiction.
          -- exists dv. rewrite Vo by exact Hne. auto.
      + intros y dy d z Hy Hdy Hin. rewrite VS in Hdy by exact Hy. destruct Hin as [[= <- <-]|Hin]; [specialize (Hle y dy Hy Hdy); lia|].
        apply (di_least _ _ _ _ I y dy d z Hy Hdy Hin).
      + constructor; [|apply (di_nodup _ _ _ _ I)]. intros Hin. destruct (di_bound _ _ _ _ I _ _ Hin) as (dx & H1 & H2 & _). specialize (Hlt dx H1). lia.
      + intros y Hy. destruct (Nat.eq_dec y x) as [->|Hne]; [rewrite Vx in Hy; discriminate|]. rewrite Vo in Hy by exact Hne. rewrite Po by exact Hne. apply (di_none _ _ _ _ I y Hy).
    - split; [exact VS|]. intros y d Hy. destruct (Nat.eq_dec y x) as [->|Hne]; [exists (dist + w); split; [exact Vx|]; specialize (Hlt d Hy); lia|].
      exists d. split; [rewrite Vo by exact Hne; exact Hy|lia].
    - intros r' dv [<-|[]] Hk Hdv'. fold x w. rewrite VS in Hdv' by exact Hv. rewrite Hdv in Hdv'. injection Hdv' as <-. exists (dist + w). split; [exact Vx|lia].
    - simpl. lia.
  Qed.
  Lemma relax_all S v dist : In v S -> forall rs st, (forall r, In r rs -> In r (roads_of joins v)) -> ds_dist st v = Some dist -> (forall y dy, In y S -> ds_dist st y = Some dy -> dy <= dist) ->
    dinv S (ds_heap st) (ds_dist st) (ds_path st) ->
    let st' := fold_left (relax avail dist v) rs st in
    dinv S (ds_heap st') (ds_dist st') (ds_path st') /\ grows (ds_dist st) (ds_dist st') S /\ relaxed (ds_dist st') v rs /\ (length (ds_heap st') <= length rs + length (ds_heap st))%nat.
  Proof.
    intros Hv. induction rs as [|r rs IH]; intros st Hrs Hd Hle I; cbn [fold_left]; cbv zeta in *.
    - split; [exact I|]. split; [apply grows_refl|]. split; [intros r dv []|simpl; lia].
    - destruct (relax_inv S v dist st r Hv Hd Hle (Hrs r (or_introl eq_refl)) I) as (I1 & G1 & R1 & L1). set (st1 := relax avail dist v st r) in *.
      destruct (IH st1) as (I2 & G2 & R2 & L2).
      + intros r' H'. apply Hrs. right. exact H'.
      + rewrite (proj1 G1 v Hv). exact Hd.
      + intros y dy Hy Hdy. rewrite (proj1 G1 y Hy) in Hdy. apply (Hle y dy Hy Hdy).
      + exact I1.
      + split; [exact I2|]. split; [eapply grows_trans; eauto|]. split.
        * intros r' dv [<-|H'] Hk Hdv; [|apply (R2 r' dv H' Hk Hdv)]. apply (relaxed_grows _ _ _ _ _ G2 Hv R1 r dv (or_introl eq_refl) Hk Hdv).
        * simpl. lia.
  Qed.

  (** ** The number of rounds *)
  Definition degree (v : nat) := length (roads_of joins v).
  Definition unsettled (S : list nat) := list_sum (map (fun v => if mem v S then 0%nat else degree v) (seq 0 n)).
  Lemma settle_sum S v l : NoDup l -> In v l -> ~ In v S ->
    (list_sum (map (fun x => if mem x (v :: S) then 0%nat else degree x) l) + degree v = list_sum (map (fun x => if mem x S then 0%nat else degree x) l))%nat.
  Proof.
    intros Hnd Hin Hn. induction l as [|x l IH]; [destruct Hin|]. inversion Hnd as [|? ? N1 N2]; subst. cbn [map]. unfold list_sum in *. cbn [fold_right].
    assert (K : ~ In v l -> map (fun x => if mem x (v :: S) then 0%nat else degree x) l = map (fun x => if mem x S then 0%nat else degree x) l).
    { intros Hv. apply map_ext_in. intros y Hy. destruct (mem y (v :: S)) eqn:E1, (mem y S) eqn:E2; auto.
      - apply mem_in in E1. apply mem_nin in E2. destruct E1 as [<-|E1]; contradiction.
      - apply mem_nin in E1. apply mem_in in E2. exfalso. apply E1. right. exact E2. }
    destruct Hin as [->|Hin].
    - rewrite (K N1). assert (E1 : mem v (v :: S) = true) by (apply mem_in; left; reflexivity). rewrite E1. assert (E2 : mem v S = false) by (apply mem_nin; exact Hn). rewrite E2. lia.
    - specialize (IH N2 Hin). assert (x <> v) by (intros ->; contradiction).
      assert (E : mem x (v :: S) = mem x S).
      { destruct (mem x S) eqn:E2; [apply mem_in; right; apply mem_in; exact E2|]. apply mem_nin. apply mem_nin in E2. intros [<-|H']; [congruence|contradiction]. }
      rewrite E. lia.
  Qed.

  Record dfull (S : list nat) (st : dstate) : Prop := {
    df_inv : dinv S (ds_heap st) (ds_dist st) (ds_path st);
    df_relaxed : forall v, In v S -> relaxed (ds_dist st) v (roads_of joins v)
  }.
  Lemma loop_ends : forall fuel S st, dfull S st -> (length (ds_heap st) + unsettled S < fuel)%nat ->
    exists S' st', dijkstra_loop fuel joins avail st = Some st' /\ dfull S' st' /\ ds_heap st' = [].
  Proof.
    induction fuel as [|fuel IH]; intros S st [I R] Hf; [lia|]. cbn [dijkstra_loop].
    assert (Hpop := pop_min_spec (ds_heap st)). destruct (pop_min (ds_heap st)) as [[[dist v] rest]|].
    2: { exists S, st. split; [reflexivity|]. split; [constructor; assumption|exact Hpop]. }
    destruct Hpop as [Hp Hm].
    assert (Hin : In (dist, v) (ds_heap st)) by (eapply Permutation_in; [symmetry; exact Hp|left; reflexivity]).
    assert (Hrest : forall e, In e rest -> In e (ds_heap st)) by (intros e He; eapply Permutation_in; [symmetry; exact Hp|right; exact He]).
    assert (Hnd : NoDup ((dist, v) :: rest)) by (eapply Permutation_NoDup; [exact Hp|apply (di_nodup _ _ _ _ I)]).
    assert (Hlen : length (ds_heap st) = Datatypes.S (length rest)) by (rewrite (Permutation_length Hp); reflexivity).
    inversion Hnd as [|? ? N1 N2]; subst.
    destruct (di_bound _ _ _ _ I dist v Hin) as (dv & Hdv & Hle & Hst). rewrite Hdv.
    destruct (Z.ltb_spec dv dist) as [Hlt|Hge].
    - apply (IH S); [|cbn [ds_heap]; lia]. constructor; [|exact R]. cbn [ds_heap ds_dist ds_path].
      destruct I as [J1 J2 J3 J4 J5 J6 J7 J8]. constructor; auto.
      + intros x d Hx Hn. assert (B := J4 x d Hx Hn). apply (Permutation_in _ Hp) in B. destruct B as [[= -> ->]|B]; [|exact B].
        exfalso. rewrite Hdv in Hx. injection Hx as ->. lia.
      + intros y dy d x Hy Hdy Hx. eapply J6; eauto.
    - assert (dist = dv) by lia. subst dv.
      assert (Hns : ~ In v S) by (intros Hv; specialize (Hst Hv); lia).
      assert (Hvn : (v < n)%nat) by apply (di_from _ _ _ _ I v dist Hdv).
      set (st1 := Ds rest (ds_dist st) (ds_path st)).
      assert (I1 : dinv (v :: S) (ds_heap st1) (ds_dist st1) (ds_path st1)).
      { unfold st1. cbn [ds_heap ds_dist ds_path]. destruct I as [J1 J2 J3 J4 J5 J6 J7 J8]. constructor; auto.
        - intros x d Hx. destruct (J2 x d Hx) as (K1 & K2 & K3). split; [exact K1|]. split; [exact K2|].
          destruct K3 as [K3|(p & k & w & dp & Q1 & Q2 & Q3 & Q4 & Q5 & Q6)]; [left; exact K3|right]. exists p, k, w, dp. repeat split; auto. right. exact Q6.
        - intros x [<-|Hx]; [eauto|apply J3, Hx].
        - intros x d Hx Hn. assert (B := J4 x d Hx ltac:(intros Hi; apply Hn; right; exact Hi)). apply (Permutation_in _ Hp) in B.
          destruct B as [[= -> ->]|B]; [exfalso; apply Hn; left; reflexivity|exact B].
        - intros d x Hx. destruct (J5 d x (Hrest _ Hx)) as (dx & K1 & K2 & K3). exists dx. split; [exact K1|]. split; [exact K2|].
          intros [<-|Hi]; [|apply K3, Hi]. assert (dx = dist) by congruence. subst dx. assert (d <> dist) by (intros ->; contradiction). lia.
        - intros y dy d x [<-|Hy] Hdy Hx.
          + rewrite Hdv in Hdy. injection Hdy as <-. apply (Hm (d, x)). apply Hrest, Hx.
          + eapply J6; eauto. }
      destruct (relax_all (v :: S) v dist (or_introl eq_refl) (roads_of joins v) st1) as (I2 & G2 & R2 & L2).
      + auto.
      + exact Hdv.
      + intros y dy [<-|Hy] Hdy; cbn in Hdy; [rewrite Hdv in Hdy; injection Hdy as <-; lia|]. apply (di_least _ _ _ _ I y dy dist v Hy Hdy Hin).
      + exact I1.
      + set (st2 := fold_left (relax avail dist v) (roads_of joins v) st1) in *. apply (IH (v :: S)).
        * constructor; [exact I2|]. intros x [<-|Hx]; [exact R2|]. apply (relaxed_grows _ _ (v :: S) x _ G2 (or_intror Hx)). apply (R x Hx).
        * assert (A0 := settle_sum S v (seq 0 n) (seq_NoDup n 0) ltac:(apply in_seq; lia) Hns). unfold unsettled, degree in *. unfold st1 in L2. cbn [ds_heap] in L2. lia.
  Qed.
  Lemma dijkstra_ends : exists S st, dijkstra n joins avail s = Some st /\ dfull S st /\ ds_heap st = [].
  Proof.
    unfold dijkstra. apply (loop_ends _ []).
    - constructor; [|intros v []]. cbn [ds_heap ds_dist ds_path]. unfold vset. constructor.
      + rewrite Nat.eqb_refl. reflexivity.
      + intros v d. destruct (Nat.eqb_spec v s) as [->|]; [|discriminate]. intros [= <-]. split; [exact Hs|]. split; [lia|left; reflexivity].
      + intros v [].
      + intros v d. destruct (Nat.eqb_spec v s) as [->|]; [|discriminate]. intros [= <-] _. left. reflexivity.
      + intros d v [[= <- <-]|[]]. exists 0. rewrite Nat.eqb_refl. split; [reflexivity|]. split; [lia|intros []].
      + intros v dv d x [].
      + repeat constructor. intros [].
      + reflexivity.
    - cbn [ds_heap length]. unfold dijkstra_rounds, unsettled, degree. cbn [mem]. simpl. lia.
  Qed.
End Dijkstra.

(** ** C37 *)
(** The table of distances holds the length of a shortest route between any two nodes and
    no entry iff there is none; following the recorded hops gives a shortest route.
    The distance of a node to itself is that of the shortest round trip. *)
Theorem routes_exact n joins dist path : good_roads n joins -> build_routes n joins = Some (dist, path) ->
  forall u v,
    match dist u v with
    | Some d =>
        (exists ids, get_route n joins path u v = Some (map Some ids) /\ route joins (fun _ => True) u v ids d) /\
        (forall ids' d', route joins (fun _ => True) u v ids' d' -> d <= d')
    | None => forall ids d, ~ route joins (fun _ => True) u v ids d
    end.
Proof.
  intros G E u v. unfold build_routes in E. destruct (all_have_roads n joins); [|discriminate]. injection E as E.
  assert (I := fw_inv_all n joins G). rewrite E in I. destruct (dist u v) as [d|] eqn:Ed.
  - split; [apply (get_route_ok n joins G dist path u v d E Ed)|]. intros ids' d' R.
    destruct (fi_best _ _ _ I u v d' (route_below n joins G _ _ _ _ R)) as (d'' & H1 & H2). cbn [fst] in H1. rewrite Ed in H1. injection H1 as <-. exact H2.
  - intros ids d R. destruct (fi_best _ _ _ I u v d (route_below n joins G _ _ _ _ R)) as (d'' & H1 & H2). cbn [fst] in H1. congruence.
Qed.
Print Assumptions routes_exact.

(** The table can be built iff every node has a road. *)
Theorem routes_built n joins : (forall u, (u < n)%nat -> exists k v w, joined joins k u v w) <-> exists r, build_routes n joins = Some r.
Proof.
  unfold build_routes, all_have_roads. split.
  - intros H. destruct (forallb _ _) eqn:E; [eauto|]. exfalso. apply not_true_iff_false in E. apply E. apply forallb_forall.
    intros x Hx. apply in_seq in Hx. destruct (H x ltac:(lia)) as (k & v & w & Hj).
    assert (B : In (Rd k v w) (roads_of joins x)) by (apply roads_of_in; exact Hj). destruct (roads_of joins x); [destruct B|reflexivity].
  - intros [r Hr] u Hu. destruct (forallb _ _) eqn:E; [|discriminate]. rewrite forallb_forall in E. specialize (E u ltac:(apply in_seq; lia)).
    destruct (roads_of joins u) as [|[k v w] l] eqn:El; [discriminate|]. exists k, v, w.
    assert (B : In (Rd k v w) (roads_of joins u)) by (rewrite El; left; reflexivity). apply roads_of_in in B. exact B.
Qed.
Print Assumptions routes_built.

(** The holders a node can reach, each once, nearest first, each with the length of a
    shortest route to it. *)
Theorem sorted_holders_correct n joins dist path holders node : good_roads n joins -> build_routes n joins = Some (dist, path) -> NoDup holders ->
  let l := get_sorted_holders dist holders node in
  NoDup (map snd l) /\ StronglySorted (fun a b => fst a <= fst b) l /\
  (forall h, In h (map snd l) <-> In h holders /\ exists ids d, route joins (fun _ => True) node h ids d) /\
  (forall h d, In (d, h) l -> (exists ids, route joins (fun _ => True) node h ids d) /\ forall ids' d', route joins (fun _ => True) node h ids' d' -> d <= d').
Proof.
  intros G E Hnd. cbv zeta. unfold get_sorted_holders. set (f := fun i => match dist node i with Some d => [(d, i)] | None => [] end).
  assert (P := sort_perm fst (concat (map f holders))). set (l := sort_by fst (concat (map f holders))) in *.
  assert (Hin : forall d h, In (d, h) l <-> In h holders /\ dist node h = Some d).
  { intros d h. split.
    - intros H. apply (Permutation_in _ P) in H. apply in_concat in H as (x & Hx & Hi). apply in_map_iff in Hx as (i & <- & Hh). unfold f in Hi.
      destruct (dist node i) as [d'|] eqn:Ed; [|destruct Hi]. destruct Hi as [[= <- <-]|[]]. auto.
    - intros [H1 H2]. apply (Permutation_in _ (Permutation_sym P)). apply in_concat. exists (f h). split; [apply in_map, H1|]. unfold f. rewrite H2. left. reflexivity. }
  split; [|split; [|split]].
  - eapply Permutation_NoDup; [apply Permutation_map; symmetry; exact P|]. clear - Hnd. induction holders as [|h holders IH]; [constructor|].
    inversion Hnd as [|? ? N1 N2]; subst. cbn [map concat]. rewrite map_app. specialize (IH N2). unfold f at 1. destruct (dist node h); [|exact IH]. cbn [map app snd].
    constructor; [|exact IH]. intros H. apply in_map_iff in H as ([d i] & Hs & Hc). cbn [snd] in Hs. subst i. apply in_concat in Hc as (x & Hx & Hi).
    apply in_map_iff in Hx as (j & <- & Hj). unfold f in Hi. destruct (dist node j); [|destruct Hi]. destruct Hi as [[= <- <-]|[]]. contradiction.
  - apply sort_ascending.
  - intros h. rewrite in_map_iff. assert (X := routes_exact n joins dist path G E node h). split.
    + intros ([d i] & Hs & Hi). cbn [snd] in Hs. subst i. apply Hin in Hi as [H1 H2]. split; [exact H1|]. rewrite H2 in X. destruct X as [(ids & _ & R) _]. eauto.
    + intros [H1 (ids & d & R)]. destruct (dist node h) as [d'|] eqn:Ed; [|exfalso; eapply X; eauto]. exists (d', h). split; [reflexivity|]. apply Hin. auto.
  - intros h d H. apply Hin in H as [_ H]. assert (X := routes_exact n joins dist path G E node h). rewrite H in X. destruct X as [(ids & _ & R) M]. split; [eauto|exact M].
Qed.
Print Assumptions sorted_holders_correct.

(** The route built from the available roads only uses them and is a shortest one of its kind;
    the list is empty iff the available roads do not join the two nodes. *)
Theorem construct_route_correct n joins avail from to : good_roads n joins -> (from < n)%nat -> (to < n)%nat -> from <> to ->
  (exists ids d, construct_route n joins avail from to = Some (map Some ids) /\ ids <> [] /\ route joins (fun k => In k avail) from to ids d /\
     forall ids' d', route joins (fun k => In k avail) from to ids' d' -> d <= d') \/
  (construct_route n joins avail from to = Some [] /\ forall ids d, ~ route joins (fun k => In k avail) from to ids d).
Proof.
  intros G Hf Ht Hne. destruct (dijkstra_ends n joins avail to G Ht) as (S & st & E & [I R] & Hh). unfold construct_route. rewrite E.
  assert (All : forall v d, ds_dist st v = Some d -> In v S).
  { intros v d Hd. destruct (in_dec Nat.eq_dec v S) as [H|H]; [exact H|]. assert (B := di_heap _ _ _ _ _ _ _ _ I v d Hd H). rewrite Hh in B. destruct B. }
  assert (Best : forall u v ids d, route joins (fun k => In k avail) u v ids d -> forall du, ds_dist st u = Some du -> exists dv, ds_dist st v = Some dv /\ dv <= du + d).
  { induction 1 as [k u v w Hk Hj|k u m v w ids d Hk Hj Hr IH]; intros du Hu.
    - destruct (R u (All u du Hu) (Rd k v w) du) as (dx & H1 & H2); [apply roads_of_in; exact Hj|exact Hk|exact Hu|]. exists dx. auto.
    - destruct (R u (All u du Hu) (Rd k m w) du) as (dx & H1 & H2); [apply roads_of_in; exact Hj|exact Hk|exact Hu|]. cbn [rd_finish rd_weight] in *.
      destruct (IH dx H1) as (dv & H3 & H4). exists dv. split; [exact H3|lia]. }
  assert (Src := di_src _ _ _ _ _ _ _ _ I).
  destruct (ds_dist st from) as [d|] eqn:Ed.
  - left.
    assert (Hp : exists p, ds_path st from = Z.of_nat p).
    { destruct (di_from _ _ _ _ _ _ _ _ I from d Ed) as (_ & _ & [H|(p & k & w & dp & H & _)]); [contradiction|eauto]. }
    destruct Hp as [p Hp]. destruct (Z.eqb_spec (ds_path st from) (-1)); [lia|].
    destruct (follow_spec n joins G (fun k => In k avail) to (fun v => if Nat.eqb v to then None else ds_dist st v) (ds_path st)) with (fuel := Datatypes.S n) (visited := @nil nat) (v := from) (d := d) as (l & ids & F1 & F2 & F3).
    + intros v dv Hv. destruct (Nat.eqb_spec v to); [discriminate|].
      destruct (di_from _ _ _ _ _ _ _ _ I v dv Hv) as (_ & _ & [H|(q & k & w & dq & H1 & H2 & H3 & H4 & H5 & _)]); [contradiction|].
      destruct (Nat.eq_dec q to) as [->|Hq].
      * left. split; [exact H1|]. exists k. split; [exact H2|]. assert (dq = 0) by congruence. replace dv with w by lia. exact H3.
      * right. exists q, k, w, dq. destruct (Nat.eqb_spec q to); [contradiction|]. auto 10.
    + destruct (Nat.eqb_spec from to); [contradiction|exact Ed].
    + constructor.
    + intros x [].
    + simpl. lia.
    + rewrite F1. cbn [option_map]. exists ids, d. rewrite F2. split; [reflexivity|]. split; [intros ->; inversion F3|]. split; [exact F3|].
      intros ids' d' R'. apply route_rev in R'. destruct (Best _ _ _ _ R' 0 Src) as (dv & H1 & H2). rewrite Ed in H1. injection H1 as <-. lia.
  - right. assert (N : forall ids d, ~ route joins (fun k => In k avail) from to ids d).
    { intros ids d R'. apply route_rev in R'. destruct (Best _ _ _ _ R' 0 Src) as (dv & H1 & _). congruence. }
    split; [|exact N]. rewrite (di_none _ _ _ _ _ _ _ _ I from Ed). unfold first_row.
    destruct (Nat.eqb_spec to from); [congruence|]. destruct (adj_matrix joins to from) as [w|] eqn:Ea; [|reflexivity].
    destruct (road_matrix joins to from) as [id|] eqn:Er; [|reflexivity]. destruct (mem id avail) eqn:Em; [|reflexivity].
    exfalso. apply (adj_joined n joins G) in Ea as [k Hk]. rewrite (road_matrix_joined n joins G k to from w Hk) in Er. injection Er as <-.
    apply mem_in in Em. apply (N [k] w). apply route_one; [exact Em|apply joined_sym, Hk].
Qed.
Print Assumptions construct_route_correct.

(** Non-vacuity: five nodes, a short cut, and a part that cannot be reached. *)
(** Road of length [w] between [u] and [v]. *)
Definition rd3 (u v : nat) (w : Z) : nat * nat * Z := (u, v, w).
Definition rd4 (k u v : nat) (w : Z) : nat * nat * nat * Z := (k, u, v, w).
Definition demo_roads : list (nat * nat * Z) := [rd3 0 1 7; rd3 1 2 2; rd3 0 2 3; rd3 3 4 5].
Lemma demo_good : good_roads 5 demo_roads.
Proof.
  assert (C : forall k u v w, joined demo_roads k u v w -> In (k, u, v, w) [rd4 0 0 1 7; rd4 1 1 2 2; rd4 2 0 2 3; rd4 3 3 4 5; rd4 0 1 0 7; rd4 1 2 1 2; rd4 2 2 0 3; rd4 3 4 3 5]).
  { intros k u v w [H|H]; do 5 (destruct k as [|k]; [cbn in H; try discriminate; injection H as <- <- <-; simpl; auto 10|]); cbn in H; destruct k; discriminate. }
  constructor.
  - intros k u v w H. apply C in H. simpl in H. repeat destruct H as [H|H]; try (injection H as <- <- <- <-; lia). destruct H.
  - intros k u v w H. apply C in H. simpl in H. repeat destruct H as [H|H]; try (injection H as <- <- <- <-; lia). destruct H.
  - intros k u v w H. apply C in H. simpl in H. repeat destruct H as [H|H]; try (injection H as <- <- <- <-; lia). destruct H.
  - intros k k' u v w w' H H'. apply C in H. apply C in H'. simpl in H, H'.
    decompose [or] H; clear H; try contradiction; match goal with E : rd4 _ _ _ _ = _ |- _ => injection E as <- <- <- <- end;
      decompose [or] H'; clear H'; try contradiction; match goal with E : rd4 _ _ _ _ = _ |- _ => injection E; intros; subst; try reflexivity; discriminate end.
Qed.
Example routes_example : match build_routes 5 demo_roads with
  | Some (dist, path) => dist 0%nat 1%nat = Some 5 /\ get_route 5 demo_roads path 0 1 = Some [Some 2%nat; Some 1%nat] /\ dist 0%nat 3%nat = None /\
      get_sorted_holders dist [3; 1; 2]%nat 0 = [(3, 2%nat); (5, 1%nat)]
  | None => False end /\
  construct_route 5 demo_roads [0; 1; 2; 3]%nat 0 1 = Some [Some 2%nat; Some 1%nat] /\
  construct_route 5 demo_roads [0; 1; 3]%nat 0 1 = Some [Some 0%nat] /\ construct_route 5 demo_roads [1; 3]%nat 0 1 = Some [].
Proof. vm_compute. repeat split; reflexivity. Qed.

(** ** Findings *)
(** A holder at the node itself is listed with the length of a round trip, behind other
    holders. *)
Theorem own_holder_not_first : match build_routes 5 demo_roads with
  | Some (dist, _) => get_sorted_holders dist [0; 2]%nat 0 = [(3, 2%nat); (6, 0%nat)]
  | None => False end.
Proof. vm_compute. reflexivity. Qed.
(** Asking for a route to the last node when it cannot be reached never ends: there is no
    road, the hop is -1, which Python reads as the last position. *)
Theorem unreachable_route_diverges : match build_routes 5 demo_roads with
  | Some (_, path) => forall fuel, get_route_fuel fuel 5 demo_roads path 0 4 = None
  | None => False end.
Proof.
  assert (E : match build_routes 5 demo_roads with Some (_, path) => path 0%nat 4%nat = -1 | None => False end) by (vm_compute; reflexivity).
  destruct (build_routes 5 demo_roads) as [[dist path]|]; [|exact E]. intros fuel. unfold get_route_fuel.
  assert (K : forall f x, py_index 5 x = 4%nat -> follow f 5 (path 0%nat) 0 x = None).
  { induction f as [|f IH]; intros x Hx; cbn [follow]; [reflexivity|]. rewrite Hx, E. change (-1 =? Z.of_nat 0) with false. cbv iota. rewrite IH; reflexivity. }
  rewrite K; reflexivity.
Qed.
(** With two roads between the same nodes the distance is that of the road added last. *)
Theorem parallel_roads_not_shortest : match build_routes 2 [rd3 0 1 1; rd3 0 1 5] with
  | Some (dist, _) => dist 0%nat 1%nat = Some 5 | None => False end /\
  route [rd3 0 1 1; rd3 0 1 5] (fun _ => True) 0 1 [0%nat] 1.
Proof. split; [vm_compute; reflexivity|]. apply route_one; [exact I|]. left. reflexivity. Qed.
(** ... and the route built from the available roads may use a road that is not available. *)
Theorem parallel_roads_unavailable : construct_route 2 [rd3 0 1 1; rd3 0 1 5] [0%nat] 0 1 = Some [Some 1%nat].
Proof. vm_compute. reflexivity. Qed.
(** Roads of length zero do not count as parts of longer routes. *)
Theorem zero_roads_ignored : match build_routes 3 [rd3 0 1 0; rd3 1 2 4] with
  | Some (dist, _) => dist 0%nat 2%nat = None | None => False end.
Proof. vm_compute. reflexivity. Qed.
