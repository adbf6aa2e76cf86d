(** C115: landscapes set up from tables. *)
From Coq Require Import ZArith List Bool Arith Lia.
From Verif Require Import TopoModel LandscapeModel LandscapeProofs LandscapeTheorems SetupLandModel SetupLandSpec.
Import ListNotations.
Local Open Scope Z_scope.

(** ** Dictionaries *)
Lemma assign_keys d k v x : In x (map fst (assign d k v)) <-> x = k \/ In x (map fst d).
Proof.
  induction d as [|[k' v'] d IH]; cbn [assign]; [cbn; intuition|]. destruct (Nat.eqb_spec k k') as [<-|E]; cbn; [intuition|]. rewrite IH. intuition.
Qed.
Lemma assign_nodup d k v : NoDup (map fst d) -> NoDup (map fst (assign d k v)).
Proof.
  induction d as [|[k' v'] d IH]; intros N; cbn [assign]; [repeat constructor; intros []|]. cbn in N. apply NoDup_cons_iff in N as [N1 N2]. destruct (Nat.eqb_spec k k') as [<-|E]; cbn; constructor; auto.
  rewrite assign_keys. intuition congruence.
Qed.
Lemma assign_in d k v x y : NoDup (map fst d) -> In (x, y) (assign d k v) <-> (x = k /\ y = v) \/ (x <> k /\ In (x, y) d).
Proof.
  induction d as [|[k' v'] d IH]; intros N; cbn [assign].
  - cbn. split; [intros [E|[]]; injection E as <- <-; auto|intros [[-> ->]|[_ []]]; auto].
  - cbn in N. apply NoDup_cons_iff in N as [N1 N2]. destruct (Nat.eqb_spec k k') as [<-|E]; cbn.
    + split.
      * intros [E|K]; [injection E as <- <-; auto|]. right. split; [intros ->; apply N1; apply (in_map fst) in K; exact K|auto].
      * intros [[-> ->]|[K [K'|K']]]; [auto|congruence|auto].
    + rewrite IH by exact N2. split.
      * intros [K|[K|[K K']]]; [injection K as <- <-; right; split; [congruence|auto]|auto|auto].
      * intros [K|[K [K'|K']]]; auto.
Qed.
Lemma assign_new d k v : ~ In k (map fst d) -> assign d k v = d ++ [(k, v)].
Proof.
  induction d as [|[k' v'] d IH]; intros N; cbn [assign]; [reflexivity|]. destruct (Nat.eqb_spec k k') as [<-|E]; [exfalso; apply N; left; reflexivity|].
  cbn [app]. f_equal. apply IH. intros K. apply N. right. exact K.
Qed.
Lemma assigns_new {A} (f : nat * A -> materials) (l : list (nat * A)) : forall d, NoDup (map fst d ++ map fst l) -> fold_left (fun d x => assign d (fst x) (f x)) l d = d ++ map (fun x => (fst x, f x)) l.
Proof.
  induction l as [|[k v] l IH]; intros d N; cbn [fold_left map]; [rewrite app_nil_r; reflexivity|]. cbn [map fst] in N. rewrite assign_new.
  - rewrite IH; [rewrite <- app_assoc; reflexivity|]. rewrite map_app. cbn [map fst]. rewrite <- app_assoc. exact N.
  - apply NoDup_remove_2 in N. intros K. apply N, in_or_app. left. exact K.
Qed.
Lemma assigns_facts {A} (f : nat * A -> materials) (l : list (nat * A)) : forall d, NoDup (map fst d) -> NoDup (map fst l) ->
  let d' := fold_left (fun d x => assign d (fst x) (f x)) l d in
  NoDup (map fst d') /\ (forall x, In x (map fst d') <-> In x (map fst d) \/ In x (map fst l)) /\
  forall x y, In (x, y) d' <-> (exists v, In (x, v) l /\ y = f (x, v)) \/ (~ In x (map fst l) /\ In (x, y) d).
Proof.
  induction l as [|[k v] l IH]; intros d N Nl; cbn [fold_left map fst].
  - split; [exact N|]. split; [intros x; cbn; tauto|]. intros x y. split; [intros K; right; split; [intros []|exact K]|intros [(v & [] & _)|[_ K]]; exact K].
  - cbn in Nl. apply NoDup_cons_iff in Nl as [N1 N2]. destruct (IH (assign d k (f (k, v))) (assign_nodup _ _ _ N) N2) as (A1 & A2 & A3). split; [exact A1|]. split.
    + intros x. rewrite A2, assign_keys. cbn. intuition.
    + intros x y. rewrite A3, (assign_in _ _ _ _ _ N). split.
      * intros [(v' & K & ->)|[K [[-> ->]|[K' K2]]]].
        -- left. exists v'. split; [right; exact K|reflexivity].
        -- left. exists v. split; [left; reflexivity|reflexivity].
        -- right. split; [intros [E|E]; [congruence|contradiction]|exact K2].
      * intros [(v' & [K|K] & ->)|[K K']].
        -- injection K as <- <-. right. split; [exact N1|left; auto].
        -- left. eauto.
        -- right. split; [intros E; apply K; right; exact E|]. right. split; [intros ->; apply K; left; reflexivity|exact K'].
Qed.
Lemma index_some d : forall k i, index d k = Some i -> nth_error (map fst d) i = Some k.
Proof.
  induction d as [|[k' v] d IH]; intros k i E; cbn [index] in E; [discriminate|]. destruct (Nat.eqb_spec k k') as [<-|N]; [injection E as <-; reflexivity|].
  destruct (index d k) as [j|] eqn:Ej; [|discriminate]. injection E as <-. apply IH, Ej.
Qed.
Lemma index_none d k : index d k = None <-> ~ In k (map fst d).
Proof.
  induction d as [|[k' v] d IH]; cbn [index]; [cbn; tauto|]. destruct (Nat.eqb_spec k k') as [<-|N].
  - split; [discriminate|intros H; exfalso; apply H; left; reflexivity].
  - cbn. destruct (index d k); cbn; split; intros H; try discriminate; try reflexivity.
    + exfalso. assert (K : ~ In k (map fst d)) by (intros K; apply H; right; exact K). apply IH in K. discriminate.
    + intros [E|E]; [congruence|]. apply IH in E; [exact E|reflexivity].
Qed.

(** ** Roads *)
Definition row_of (u : nat) (y : nat * Z * Z) : nat * nat * Z * Z := (u, fst (fst y), snd (fst y), snd y).
Lemma neighbours_made d a u : nth_error (map fst d) u = Some a -> forall l,
  match neighbours_of d u l with
  | Some t => Forall2 (road_of (map fst d)) (map (row_of a) l) t
  | None => exists y, In y l /\ ~ In (fst (fst y)) (map fst d)
  end.
Proof.
  intros Hu. induction l as [|[[n len] load] l IH]; cbn [neighbours_of]; [constructor|]. destruct (index d n) as [v|] eqn:E.
  - destruct (neighbours_of d u l) as [t|]; [cbn [map]; constructor; [|exact IH]; unfold row_of, road_of; cbn [fst snd]; split; [exact Hu|split; [apply index_some, E|auto]]|].
    destruct IH as (y & H1 & H2). exists y. split; [right; exact H1|exact H2].
  - exists (n, len, load). split; [left; reflexivity|]. apply index_none, E.
Qed.
Lemma add_all_made d : forall rs,
  match add_all d rs with
  | Some t => Forall2 (road_of (map fst d)) (rows rs) t /\ forall n, mentioned rs n -> In n (map fst d)
  | None => exists n, mentioned rs n /\ ~ In n (map fst d)
  end.
Proof.
  assert (M : forall n adj rs x, mentioned ((n, adj) :: rs) x <-> x = n \/ (exists y, In y adj /\ fst (fst y) = x) \/ mentioned rs x).
  { intros n adj rs x. unfold mentioned, rows. cbn [map concat fst snd]. split.
    - intros [[E|E]|(a & len & load & K)]; [left; congruence|right; right; left; exact E|]. apply in_app_or in K as [K|K]; [|right; right; right; exists a, len, load; exact K]. apply in_map_iff in K as (y & E & K). right. left. exists y. split; [exact K|congruence].
    - intros [->|[(y & K & <-)|[K|(a & len & load & K)]]]; [left; left; reflexivity| |left; right; exact K|right; exists a, len, load; apply in_or_app; right; exact K].
      right. exists n, (snd (fst y)), (snd y). apply in_or_app. left. apply in_map_iff. exists y. auto. }
  induction rs as [|[n adj] rs IH]; cbn [add_all].
  - split; [constructor|]. intros n [[]|(a & len & load & [])].
  - destruct (index d n) as [u|] eqn:E.
    + assert (Hu := index_some d n u E). assert (A := neighbours_made d n u Hu adj). destruct (neighbours_of d u adj) as [a|].
      * destruct (add_all d rs) as [t|].
        -- destruct IH as [B C]. split.
           ++ unfold rows. cbn [map concat fst snd]. apply Forall2_app; [exact A|exact B].
           ++ intros x K. apply M in K as [->|[(y & K & <-)|K]]; [apply nth_error_In in Hu; exact Hu| |apply C, K].
              clear - A K. revert a A. induction adj as [|z adj IH]; intros a A; [destruct K|]. cbn [map] in A. inversion A as [|r1 r2 l1 l2 R F]; subst. destruct K as [->|K]; [|eapply IH; eauto].
              destruct r2 as [[[u0 v0] w0] b0]. destruct R as (_ & R & _). apply nth_error_In in R. exact R.
        -- destruct IH as (x & H1 & H2). exists x. split; [apply M; auto|exact H2].
      * destruct A as (y & H1 & H2). exists (fst (fst y)). split; [apply M; right; left; eauto|exact H2].
    + exists n. split; [apply M; auto|apply index_none, E].
Qed.
Lemma all_roads n joins : all_have_roads n joins = true <-> forall u, (u < n)%nat -> exists k v w, joined joins k u v w.
Proof.
  rewrite routes_built. unfold build_routes. destruct (all_have_roads n joins); split; intros H; eauto; [discriminate|]. destruct H as (r & H). discriminate.
Qed.
Lemma forall2_left {A B} (R : A -> B -> Prop) l l' : Forall2 R l l' -> forall i x, nth_error l i = Some x -> exists y, nth_error l' i = Some y /\ R x y.
Proof. induction 1 as [|a b l l' H F IH]; intros [|i] x E; try discriminate; cbn in *; [injection E as <-; eauto|eauto]. Qed.
Lemma forall2_right {A B} (R : A -> B -> Prop) l l' : Forall2 R l l' -> forall i y, nth_error l' i = Some y -> exists x, nth_error l i = Some x /\ R x y.
Proof. induction 1 as [|a b l l' H F IH]; intros [|i] y E; try discriminate; cbn in *; [injection E as <-; eauto|eauto]. Qed.
Section Rows.
  Variables (names : list nat) (rs : roads_info) (t : list ((nat * nat * Z) * Z)).
  Hypothesis N : NoDup names.
  Hypothesis F : Forall2 (road_of names) (rows rs) t.
  Lemma joined_row k u v w : joined (map fst t) k u v w <-> exists a b load, nth_error names u = Some a /\ nth_error names v = Some b /\
    (nth_error (rows rs) k = Some (a, b, w, load) \/ nth_error (rows rs) k = Some (b, a, w, load)).
  Proof.
    assert (U : forall i j x, nth_error names i = Some x -> nth_error names j = Some x -> i = j).
    { intros i j x A B. apply (proj1 (NoDup_nth_error names) N); [apply nth_error_Some; congruence|congruence]. }
    unfold joined. rewrite !nth_error_map. split.
    - intros [E|E]; destruct (nth_error t k) as [[e bw]|] eqn:Et; try discriminate; cbn in E; injection E as ->; destruct (forall2_right _ _ _ F k _ Et) as ([[[a b] len] load] & A & B); cbn in B; destruct B as (B1 & B2 & -> & ->); eauto 8.
    - intros (a & b & load & A & B & [E|E]); destruct (forall2_left _ _ _ F k _ E) as ([[[u' v'] w'] bw] & C & D); cbn in D; destruct D as (D1 & D2 & -> & ->); rewrite C; cbn; [left|right];
        [rewrite (U _ _ _ D1 A), (U _ _ _ D2 B)|rewrite (U _ _ _ D1 B), (U _ _ _ D2 A)]; reflexivity.
  Qed.
  Lemma roads_iff : all_have_roads (length names) (map fst t) = true <-> forall n, In n names -> has_row rs n.
  Proof.
    rewrite all_roads. split.
    - intros H n Hn. apply In_nth_error in Hn as (u & Hu). destruct (H u) as (k & v & w & J); [apply nth_error_Some; congruence|]. apply joined_row in J as (a & b & load & A & B & E).
      rewrite Hu in A. injection A as <-. destruct E as [E|E]; apply nth_error_In in E; do 4 eexists; (split; [exact E|auto]).
    - intros H u Hu. destruct (nth_error names u) as [n|] eqn:E; [|apply nth_error_None in E; lia]. destruct (H n (nth_error_In _ _ E)) as (a & b & len & load & K & D).
      apply In_nth_error in K as (k & K). destruct (forall2_left _ _ _ F k _ K) as ([[[u' v'] w'] bw] & C & D'). cbn in D'. destruct D' as (D1 & D2 & -> & ->).
      destruct D as [->| ->]; [exists k, v', len|exists k, u', len]; apply joined_row; [exists a, b, load|exists b, a, load]; auto.
  Qed.
  Lemma rows_simple : listed_once rs -> good_roads (length names) (map fst t).
  Proof.
    intros [L1 L2]. constructor.
    - intros k u v w J. apply joined_row in J as (a & b & load & A & B & _). split; apply nth_error_Some; congruence.
    - intros k u v w J. apply joined_row in J as (a & b & load & A & B & [E|E]); apply nth_error_In in E; apply L1 in E; lia.
    - intros k u v w J. apply joined_row in J as (a & b & load & A & B & [E|E]); apply nth_error_In in E; apply L1 in E; intros ->; rewrite A in B; injection B as ->; lia.
    - intros k k' u v w w' J J'. apply joined_row in J as (a & b & load & A & B & E). apply joined_row in J' as (a' & b' & load' & A' & B' & E'). rewrite A in A'. injection A' as <-. rewrite B in B'. injection B' as <-.
      destruct E as [E|E], E' as [E'|E']; eapply L2; eauto.
  Qed.
End Rows.

(** ** Theorems *)
Lemma nodes_facts ps ws : NoDup (map fst ps) -> NoDup (map fst ws) -> let nodes := add_warehouses (add_platforms ps) ws in
  NoDup (map fst nodes) /\ (forall n, In n (map fst nodes) <-> defined ps ws n) /\
  forall n st, In (n, st) nodes <-> (exists vs, In (n, (st, vs)) ws) \/ (~ In n (map fst ws) /\ In (n, st) ps).
Proof.
  intros Np Nw. unfold add_warehouses, add_platforms. rewrite (assigns_new snd ps [] Np). cbn [app].
  assert (E : map (fun x : nat * materials => (fst x, snd x)) ps = ps) by (rewrite <- (map_id ps) at 2; apply map_ext; intros []; reflexivity). rewrite E.
  destruct (assigns_facts (fun x : nat * (materials * list (nat * materials)) => fst (snd x)) ws ps Np Nw) as (A & B & C). split; [exact A|]. split; [exact B|].
  intros n st. rewrite C. split; (intros [H|H]; [left|right; exact H]).
  - destruct H as ([m vs] & H & ->). eauto.
  - destruct H as (vs & H). exists (st, vs). auto.
Qed.

(** When it succeeds: all names in the table of roads are defined and each node has a road.
    Otherwise the failure is the one that fits. *)
Theorem setup_outcome ps ws rs : NoDup (map fst ps) -> NoDup (map fst ws) ->
  match setup_landscape ps ws rs with
  | Ready _ => (forall n, mentioned rs n -> defined ps ws n) /\ forall n, defined ps ws n -> has_row rs n
  | KeyError => exists n, mentioned rs n /\ ~ defined ps ws n
  | NoRoads => (forall n, mentioned rs n -> defined ps ws n) /\ exists n, defined ps ws n /\ ~ has_row rs n
  end.
Proof.
  intros Np Nw. destruct (nodes_facts ps ws Np Nw) as (A & B & C). unfold setup_landscape. set (nodes := add_warehouses (add_platforms ps) ws) in *.
  assert (M := add_all_made nodes rs). destruct (add_all nodes rs) as [t|].
  - destruct M as [F M]. assert (R := roads_iff (map fst nodes) rs t A F). rewrite map_length in R. destruct (all_have_roads _ _).
    + split; [intros n H; apply B, M, H|]. intros n H. apply B in H. apply (proj1 R eq_refl n H).
    + split; [intros n H; apply B, M, H|]. assert (D : forall n, {has_row rs n} + {~ has_row rs n}).
      { intros n. destruct (existsb (fun x => Nat.eqb n (fst (fst (fst x))) || Nat.eqb n (snd (fst (fst x)))) (rows rs)) eqn:E.
        - left. apply existsb_exists in E as ([[[a b] len] load] & K & E). cbn in E. apply orb_true_iff in E. rewrite !Nat.eqb_eq in E. exists a, b, len, load. auto.
        - right. intros (a & b & len & load & K & D). apply not_true_iff_false in E. apply E, existsb_exists. exists (a, b, len, load). split; [exact K|]. cbn. apply orb_true_iff. rewrite !Nat.eqb_eq. exact D. }
      destruct (Exists_dec (fun n => ~ has_row rs n) (map fst nodes)) as [X|X]; [intros n; destruct (D n); [right; tauto|left; assumption]| |].
      * apply Exists_exists in X as (n & X1 & X2). exists n. split; [apply B, X1|exact X2].
      * exfalso. assert (Q : false = true); [apply R|discriminate]. intros n Hn. destruct (D n) as [Y|Y]; [exact Y|]. exfalso. apply X, Exists_exists. eauto.
  - destruct M as (n & M1 & M2). exists n. split; [exact M1|]. rewrite <- B. exact M2.
Qed.
Print Assumptions setup_outcome.

(** What it makes if no warehouse has the name of a platform: the nodes of the tables with
    their storages, platforms first; the roads of the table; the holders of the table at
    their own nodes, with their vehicles. *)
Theorem setup_made ps ws rs s : NoDup (map fst ps ++ map fst ws) -> setup_landscape ps ws rs = Ready s ->
  su_nodes s = ps ++ map (fun x => (fst x, fst (snd x))) ws /\
  Forall2 (road_of (map fst (su_nodes s))) (rows rs) (su_roads s) /\
  Forall2 (fun x h => ho_name h = fst x /\ ho_vehicles h = snd (snd x) /\ nth_error (su_nodes s) (ho_node h) = Some (fst x, fst (snd x))) ws (su_holders s) /\
  exists r, build_routes (length (su_nodes s)) (map fst (su_roads s)) = Some r.
Proof.
  intros N E. unfold setup_landscape in E. set (nodes := add_warehouses (add_platforms ps) ws) in *.
  assert (Np : NoDup (map fst ps)). { clear E nodes. induction (map fst ps) as [|x l IH]; [constructor|]. cbn in N. apply NoDup_cons_iff in N as [N1 N2]. constructor; [intros K; apply N1, in_or_app; left; exact K|auto]. }
  assert (En : nodes = ps ++ map (fun x => (fst x, fst (snd x))) ws).
  { unfold nodes, add_warehouses, add_platforms. rewrite (assigns_new snd ps [] Np). cbn [app].
    assert (E0 : map (fun x : nat * materials => (fst x, snd x)) ps = ps) by (rewrite <- (map_id ps) at 2; apply map_ext; intros []; reflexivity). rewrite E0.
    apply (assigns_new (fun x : nat * (materials * list (nat * materials)) => fst (snd x)) ws ps N). }
  assert (M := add_all_made nodes rs). destruct (add_all nodes rs) as [t|]; [|discriminate]. destruct M as [F M]. destruct (all_have_roads _ _) eqn:Ea; [|discriminate]. injection E as <-. cbn [su_nodes su_roads su_holders].
  split; [exact En|]. split; [exact F|]. split; [|unfold build_routes; rewrite Ea; eauto].
  assert (Nn : NoDup (map fst nodes)). { rewrite En, map_app, map_map. cbn [fst]. exact N. }
  assert (G : forall x, In x ws -> In (fst x, fst (snd x)) nodes) by (intros x K; rewrite En; apply in_or_app; right; apply in_map_iff; eauto).
  unfold holders_of. revert G. generalize ws as l. induction l as [|x l IH]; intros G; cbn [map]; constructor; [|apply IH; intros y K; apply G; right; exact K].
  cbn [ho_name ho_vehicles ho_node]. split; [reflexivity|]. split; [reflexivity|]. assert (K := G x (in_eq _ _)). destruct (index nodes (fst x)) as [i|] eqn:Ei.
  - apply index_some in Ei. rewrite nth_error_map in Ei. destruct (nth_error nodes i) as [[n st]|] eqn:Ex; [|discriminate]. cbn in Ei. injection Ei as ->. f_equal. f_equal.
    apply nth_error_In in Ex. clear - Nn Ex K. induction nodes as [|[k v] l IH]; [destruct K|]. cbn in Nn. apply NoDup_cons_iff in Nn as [N1 N2]. destruct Ex as [Ex|Ex], K as [K|K].
    + congruence.
    + exfalso. apply N1. apply (in_map fst) in K. cbn in K. congruence.
    + exfalso. apply N1. apply (in_map fst) in Ex. cbn in Ex. congruence.
    + auto.
  - exfalso. apply index_none in Ei. apply Ei. apply (in_map fst) in K. exact K.
Qed.
Print Assumptions setup_made.

(** If each road is listed once, the table of routes holds the shortest distances. *)
Theorem setup_routes_exact ps ws rs s dist path : NoDup (map fst ps) -> NoDup (map fst ws) -> listed_once rs -> setup_landscape ps ws rs = Ready s ->
  build_routes (length (su_nodes s)) (map fst (su_roads s)) = Some (dist, path) ->
  forall u v, match dist u v with
    | Some d => (exists ids, get_route (length (su_nodes s)) (map fst (su_roads s)) path u v = Some (map Some ids) /\ route (map fst (su_roads s)) (fun _ => True) u v ids d) /\
        forall ids' d', route (map fst (su_roads s)) (fun _ => True) u v ids' d' -> d <= d'
    | None => forall ids d, ~ route (map fst (su_roads s)) (fun _ => True) u v ids d
    end.
Proof.
  intros Np Nw L E R. apply (routes_exact (length (su_nodes s)) (map fst (su_roads s)) dist path); [|exact R]. destruct (nodes_facts ps ws Np Nw) as (A & _).
  unfold setup_landscape in E. set (nodes := add_warehouses (add_platforms ps) ws) in *. assert (M := add_all_made nodes rs). destruct (add_all nodes rs) as [t|]; [|discriminate]. destruct M as [F _].
  destruct (all_have_roads _ _); [|discriminate]. injection E as <-. cbn [su_nodes su_roads]. rewrite <- (map_length fst nodes). apply (rows_simple _ rs t A F L).
Qed.
Print Assumptions setup_routes_exact.

(** Finding: a warehouse with the name of a platform takes its place; the platform is lost. *)
Theorem platform_lost ps ws rs s n st vs : NoDup (map fst ps) -> NoDup (map fst ws) -> setup_landscape ps ws rs = Ready s ->
  In n (map fst ps) -> In (n, (st, vs)) ws ->
  (forall st', In (n, st') (su_nodes s) <-> st' = st) /\ (length (su_nodes s) < length ps + length ws)%nat.
Proof.
  intros Np Nw E Hp Hw. destruct (nodes_facts ps ws Np Nw) as (A & B & C). unfold setup_landscape in E. set (nodes := add_warehouses (add_platforms ps) ws) in *.
  destruct (add_all _ _); [|discriminate]. destruct (all_have_roads _ _); [|discriminate]. injection E as <-. cbn [su_nodes]. split.
  - intros st'. rewrite C. split.
    + intros [(vs' & K)|[K _]]; [|exfalso; apply K; apply (in_map fst) in Hw; exact Hw].
      clear - Nw K Hw. induction ws as [|[k v] l IH]; [destruct K|]. cbn in Nw. apply NoDup_cons_iff in Nw as [N1 N2]. destruct K as [K|K], Hw as [Hw|Hw].
      * congruence.
      * exfalso. apply N1. apply (in_map fst) in Hw. cbn in Hw. congruence.
      * exfalso. apply N1. apply (in_map fst) in K. cbn in K. congruence.
      * auto.
    + intros ->. left. eauto.
  - rewrite <- (map_length fst nodes), <- (map_length fst ps), <- (map_length fst ws). apply in_split in Hp as (l1 & l2 & Ep).
    assert (I : incl (map fst nodes) (l1 ++ l2 ++ map fst ws)).
    { intros x Hx. apply B in Hx as [Hx|Hx]; [|apply in_or_app; right; apply in_or_app; right; exact Hx]. rewrite Ep in Hx. apply in_app_or in Hx as [Hx|[<-|Hx]]; [apply in_or_app; left; exact Hx| |apply in_or_app; right; apply in_or_app; left; exact Hx].
      apply in_or_app. right. apply in_or_app. right. apply (in_map fst) in Hw. exact Hw. }
    assert (Q := NoDup_incl_length A I). rewrite Ep. rewrite !app_length in *. cbn [length]. lia.
Qed.
Print Assumptions platform_lost.

(** Two platforms 1 and 2 and a warehouse 3. *)
Definition sx_platforms : platforms_info := [(1%nat, [(7%nat, 10)]); (2%nat, [])].
Definition sx_warehouses : warehouses_info := [(3%nat, ([(7%nat, 100)], [(5%nat, [(7%nat, 4)])]))].
Definition sx_roads : roads_info := [(3%nat, [(1%nat, 20, 2); (2%nat, 50, 2)]); (1%nat, [(2%nat, 10, 1)])].
Example setup_example : NoDup (map fst sx_platforms ++ map fst sx_warehouses) /\ listed_once sx_roads /\
  setup_landscape sx_platforms sx_warehouses sx_roads =
    Ready (SU [(1%nat, [(7%nat, 10)]); (2%nat, []); (3%nat, [(7%nat, 100)])]
              [((2%nat, 0%nat, 20), 2); ((2%nat, 1%nat, 50), 2); ((0%nat, 1%nat, 10), 1)] [Ho 3 2 [(5%nat, [(7%nat, 4)])]]).
Proof.
  split; [cbn; repeat constructor; cbn; intuition lia|]. split; [|reflexivity]. split.
  - intros a b len load K. cbn in K. repeat (destruct K as [K|K]; [injection K as <- <- <- <-; split; lia|]). destruct K.
  - assert (G : forall i x, nth_error (rows sx_roads) i = Some x -> (i = 0%nat /\ x = (3%nat, 1%nat, 20, 2)) \/ (i = 1%nat /\ x = (3%nat, 2%nat, 50, 2)) \/ (i = 2%nat /\ x = (1%nat, 2%nat, 10, 1))).
    { intros i x K. destruct i as [|[|[|[|i]]]]; cbn in K; try discriminate; injection K as <-; auto. }
    intros i j a b len load len' load' A B. destruct B as [B|B]; apply G in A; apply G in B; repeat match goal with H : _ \/ _ |- _ => destruct H | H : _ /\ _ |- _ => destruct H end; subst; congruence.
Qed.
(** the warehouse with the name of the platform 1 *)
Example lost_example : setup_landscape [(1%nat, [(7%nat, 10)]); (2%nat, [])] [(1%nat, ([(7%nat, 100)], []))] [(1%nat, [(2%nat, 20, 2)])] =
  Ready (SU [(1%nat, [(7%nat, 100)]); (2%nat, [])] [((0%nat, 1%nat, 20), 2)] [Ho 1 0 []]).
Proof. reflexivity. Qed.

(** Finding: a road that is listed from both of its ends becomes two roads, and the length
    given last counts, although the shorter road exists. *)
Theorem road_listed_twice : exists rs s dist path, setup_landscape [(1%nat, []); (2%nat, [])] [] rs = Ready s /\
  rows rs = [(1%nat, 2%nat, 50, 1); (2%nat, 1%nat, 100, 1)] /\
  build_routes 2 (map fst (su_roads s)) = Some (dist, path) /\ joined (map fst (su_roads s)) 0 0 1 50 /\ dist 0%nat 1%nat = Some 100.
Proof.
  exists [(1%nat, [(2%nat, 50, 1)]); (2%nat, [(1%nat, 100, 1)])]. eexists. do 2 eexists. split; [vm_compute; reflexivity|]. split; [reflexivity|]. split; [unfold build_routes; cbn; rewrite <- surjective_pairing; reflexivity|].
  split; [left; reflexivity|vm_compute; reflexivity].
Qed.
Print Assumptions road_listed_twice.
