From Coq Require Import ZArith List Bool Lia Relations Permutation Arith.
From Verif Require Import TimeModel MomentumModel GraphModel TopoModel TraverseModel Digraph TraverseProofs TraverseTheorems
  ScheduleSpec GraphEditModel GraphEditSpec GraphEditProofs.
Import ListNotations.

(** ** Removing from a list while iterating over it *)
Lemma edge_eqb_eq a b : edge_eqb a b = true <-> a = b.
Proof.
  destruct a as [f1 t1 l1 y1], b as [f2 t2 l2 y2]. unfold edge_eqb. cbn. rewrite !andb_true_iff, !Nat.eqb_eq, Z.eqb_eq.
  split; [intros (((-> & ->) & ->) & E); destruct y1, y2; (discriminate || reflexivity)|intros [= -> -> -> ->]; destruct y2; auto].
Qed.
Section Remove.
  Variable hit : edge -> bool.
  Definition hits (l : list edge) : nat := length (filter hit l).
  Definition keep (l : list edge) : list edge := filter (fun e => negb (hit e)) l.
  Lemma remove_first_keep e l : hit e = true -> keep (remove_first e l) = keep l.
  Proof.
    intros He. induction l as [|x l IH]; [reflexivity|]. simpl. destruct (edge_eqb x e) eqn:E.
    - apply edge_eqb_eq in E. subst x. rewrite He. reflexivity.
    - unfold keep in *. simpl. rewrite IH. reflexivity.
  Qed.
  Lemma remove_first_hits e l : hit e = true -> In e l -> S (hits (remove_first e l)) = hits l.
  Proof.
    intros He. unfold hits. induction l as [|x l IH]; intros Hin; [destruct Hin|]. simpl. destruct (edge_eqb x e) eqn:E.
    - apply edge_eqb_eq in E. subst x. rewrite He. reflexivity.
    - destruct Hin as [->|Hin]; [exfalso; assert (edge_eqb e e = true) by (apply edge_eqb_eq; reflexivity); congruence|].
      simpl. destruct (hit x); simpl; rewrite IH by exact Hin; reflexivity.
  Qed.
  Lemma rwi_keep : forall fuel i l, keep (remove_while_iterating hit fuel i l) = keep l.
  Proof.
    induction fuel as [|fuel IH]; intros i l; [reflexivity|]. simpl. destruct (nth_error l i) as [e|] eqn:En; [|reflexivity].
    rewrite IH. destruct (hit e) eqn:He; [|reflexivity]. apply remove_first_keep. exact He.
  Qed.
  Lemma rwi_hits_le : forall fuel i l, hits (remove_while_iterating hit fuel i l) <= hits l.
  Proof.
    induction fuel as [|fuel IH]; intros i l; [reflexivity|]. simpl. destruct (nth_error l i) as [e|] eqn:En; [|reflexivity].
    eapply Nat.le_trans; [apply IH|]. destruct (hit e) eqn:He; [|reflexivity]. apply nth_error_In in En.
    assert (K := remove_first_hits e l He En). lia.
  Qed.
  (** one pass removes at least one hit if there is one *)
  Lemma rwi_progress : forall fuel i l, length l <= fuel + i -> (forall j e, j < i -> nth_error l j = Some e -> hit e = false) ->
    0 < hits l -> hits (remove_while_iterating hit fuel i l) < hits l.
  Proof.
    induction fuel as [|fuel IH]; intros i l Hl Hpre Hh.
    - exfalso. unfold hits in Hh. rewrite filter_none in Hh; [cbn in Hh; lia|]. intros e He. apply In_nth_error in He as (j & Hj).
      apply (Hpre j); [|exact Hj]. assert (j < length l) by (apply nth_error_Some; congruence). lia.
    - simpl. destruct (nth_error l i) as [e|] eqn:En.
      + destruct (hit e) eqn:He.
        * assert (K := remove_first_hits e l He (nth_error_In _ _ En)). assert (K2 := rwi_hits_le fuel (S i) (remove_first e l)). lia.
        * apply IH; [lia| |exact Hh]. intros j e' Hj Ej. assert (j = i \/ j < i) as [->|Hj'] by lia; [congruence|]. eapply Hpre; eauto.
      + exfalso. unfold hits in Hh. rewrite filter_none in Hh; [cbn in Hh; lia|]. intros e He. apply In_nth_error in He as (j & Hj).
        apply (Hpre j); [|exact Hj]. assert (j < length l) by (apply nth_error_Some; congruence). apply nth_error_None in En. lia.
  Qed.
  Definition pass (l : list edge) : list edge := remove_while_iterating hit (length l) 0 l.
  Lemma pass_keep l : keep (pass l) = keep l.
  Proof. apply rwi_keep. Qed.
  Lemma pass_progress l : hits (pass l) <= hits l /\ (0 < hits l -> hits (pass l) < hits l).
  Proof. split; [apply rwi_hits_le|]. intros H. apply rwi_progress; [lia|intros j e Hj; lia|exact H]. Qed.
  Lemma no_hits_keep l : hits l = 0 -> l = keep l.
  Proof.
    unfold hits, keep. induction l as [|x l IH]; [reflexivity|]. simpl. destruct (hit x); simpl; intros H; [discriminate|]. f_equal. auto.
  Qed.
  Lemma passes_keep n : forall l, hits l <= n -> Nat.iter n pass l = keep l.
  Proof.
    assert (K : forall n l, keep (Nat.iter n pass l) = keep l) by (intros k l; induction k; simpl; [reflexivity|rewrite pass_keep; exact IHk]).
    assert (Hh : forall n l, hits (Nat.iter n pass l) <= hits l - n).
    { intros k l. induction k; simpl; [lia|]. destruct (pass_progress (Nat.iter k pass l)) as [P1 P2].
      destruct (hits (Nat.iter k pass l)); lia. }
    intros l Hl. rewrite (no_hits_keep (Nat.iter n pass l)); [apply K|]. assert (Q := Hh n l). lia.
  Qed.
End Remove.

(** the passes over the lists of the parents *)
Lemma iter_inside {A} (h : A -> A) n x : Nat.iter n h (h x) = h (Nat.iter n h x).
Proof. induction n as [|n IH]; [reflexivity|]. simpl in *. rewrite IH. reflexivity. Qed.
Lemma fold_set_at (h : list edge -> list edge) (ps : list nat) : forall f n,
  fold_left (fun f p => set_at f p (h (f p))) ps f n = Nat.iter (count_occ Nat.eq_dec ps n) h (f n).
Proof.
  induction ps as [|p ps IH]; intros f n; [reflexivity|]. cbn [fold_left count_occ]. rewrite IH. unfold set_at.
  destruct (Nat.eq_dec p n) as [->|Ne].
  - rewrite Nat.eqb_refl. rewrite iter_inside. reflexivity.
  - destruct (Nat.eqb_spec n p); [congruence|reflexivity].
Qed.
Lemma count_from d n es : count_occ Nat.eq_dec (map e_from (filter (fun e => Nat.eqb (e_to e) d) es)) n
  = hits (fun e => Nat.eqb (e_to e) d) (filter (fun e => Nat.eqb (e_from e) n) es).
Proof.
  unfold hits. induction es as [|e es IH]; [reflexivity|]. cbn [filter].
  destruct (Nat.eqb (e_to e) d) eqn:E1, (Nat.eqb_spec (e_from e) n) as [E2|E2]; cbn [map count_occ filter]; rewrite ?E1; cbn [length].
  - destruct (Nat.eq_dec (e_from e) n); [rewrite IH; reflexivity|congruence].
  - destruct (Nat.eq_dec (e_from e) n); [congruence|exact IH].
  - exact IH.
  - exact IH.
Qed.
Lemma count_to d n es : count_occ Nat.eq_dec (map e_to (filter (fun e => Nat.eqb (e_from e) d) es)) n
  = hits (fun e => Nat.eqb (e_from e) d) (filter (fun e => Nat.eqb (e_to e) n) es).
Proof.
  unfold hits. induction es as [|e es IH]; [reflexivity|]. cbn [filter].
  destruct (Nat.eqb (e_from e) d) eqn:E1, (Nat.eqb_spec (e_to e) n) as [E2|E2]; cbn [map count_occ filter]; rewrite ?E1; cbn [length].
  - destruct (Nat.eq_dec (e_to e) n); [rewrite IH; reflexivity|congruence].
  - destruct (Nat.eq_dec (e_to e) n); [congruence|exact IH].
  - exact IH.
  - exact IH.
Qed.

(** ** One deletion *)
(** the lists of the nodes other than [d] are those of the graph with these edges *)
Definition agree (d : nat) (s : two_sided) (es : list edge) : Prop :=
  forall n, n <> d -> ts_to s n = filter (fun e => Nat.eqb (e_to e) n) es /\ ts_from s n = filter (fun e => Nat.eqb (e_from e) n) es.
Definition avoids (d : nat) (e : edge) : bool := negb (Nat.eqb (e_from e) d) && negb (Nat.eqb (e_to e) d).
Lemma add_from ps c : forall f n, fold_left (fun f p => set_at f p (f p ++ [Ed p c 0%Z FS])) ps f n
  = f n ++ filter (fun e => Nat.eqb (e_from e) n) (map (fun p => Ed p c 0%Z FS) ps).
Proof.
  induction ps as [|p ps IH]; intros f n; [symmetry; apply app_nil_r|]. cbn [fold_left map filter e_from]. rewrite IH. unfold set_at.
  rewrite (Nat.eqb_sym n p). destruct (Nat.eqb_spec p n) as [->|Ne]; [rewrite <- app_assoc; reflexivity|reflexivity].
Qed.
Lemma agree_add d s es c ps : agree d s es -> agree d (add_parents s c ps) (es ++ map (fun p => Ed p c 0%Z FS) ps).
Proof.
  intros H n Hn. destruct (H n Hn) as [H1 H2]. unfold add_parents. cbn [ts_to ts_from]. rewrite !filter_app, add_from, H2. split; [|reflexivity].
  unfold set_at. destruct (Nat.eqb_spec n c) as [->|Ne].
  - rewrite H1. f_equal. symmetry. apply filter_all. intros e He. apply in_map_iff in He as (p & <- & _). apply Nat.eqb_refl.
  - rewrite H1. rewrite (filter_none _ (map (fun p => Ed p c 0%Z FS) ps)); [symmetry; apply app_nil_r|]. intros e He. apply in_map_iff in He as (p & <- & _).
    apply Nat.eqb_neq. cbn. congruence.
Qed.
Lemma agree_adds d ps : forall cs s es, agree d s es ->
  agree d (fold_left (fun s c => add_parents s c ps) cs s) (es ++ concat (map (fun c => map (fun p => Ed p c 0%Z FS) ps) cs)).
Proof.
  induction cs as [|c cs IH]; intros s es H; [cbn; rewrite app_nil_r; exact H|]. cbn [fold_left map concat]. rewrite app_assoc.
  apply IH. apply agree_add. exact H.
Qed.
Definition bridged (d : nat) (es : list edge) : list edge :=
  filter (avoids d) es ++ concat (map (fun c => map (fun p => Ed p c 0%Z FS) (map e_from (filter (fun e => Nat.eqb (e_to e) d) es)))
                                      (map e_to (filter (fun e => Nat.eqb (e_from e) d) es))).
Lemma deletion_agree d es : (forall e, In e es -> e_from e = d \/ e_to e = d -> is_dependency (e_type e) = true) ->
  agree d (node_deletion d (sides es)) (bridged d es).
Proof.
  intros Hdep. unfold node_deletion.
  assert (Ep : ts_parents (sides es) d = map e_from (filter (fun e => Nat.eqb (e_to e) d) es)).
  { unfold ts_parents. cbn [sides ts_to]. rewrite filter_all; [reflexivity|]. intros e He. apply filter_In in He as [He E]. apply Nat.eqb_eq in E. auto. }
  assert (Ec : ts_children (sides es) d = map e_to (filter (fun e => Nat.eqb (e_from e) d) es)).
  { unfold ts_children. cbn [sides ts_from]. rewrite filter_all; [reflexivity|]. intros e He. apply filter_In in He as [He E]. apply Nat.eqb_eq in E. auto. }
  rewrite Ep, Ec. unfold bridged. apply agree_adds. intros n Hn. cbn [ts_to ts_from sides].
  change (fun (f : nat -> list edge) p => set_at f p (remove_while_iterating (fun e => Nat.eqb (e_to e) d) (length (f p)) 0 (f p)))
    with (fun (f : nat -> list edge) p => set_at f p (pass (fun e => Nat.eqb (e_to e) d) (f p))).
  change (fun (f : nat -> list edge) p => set_at f p (remove_while_iterating (fun e => Nat.eqb (e_from e) d) (length (f p)) 0 (f p)))
    with (fun (f : nat -> list edge) p => set_at f p (pass (fun e => Nat.eqb (e_from e) d) (f p))).
  rewrite !fold_set_at, count_from, count_to, !passes_keep by apply Nat.le_refl. unfold keep. rewrite !filter_filter. split; apply filter_ext; intros e; unfold avoids.
  - destruct (Nat.eqb_spec (e_to e) n) as [E|E]; [|rewrite andb_false_r; reflexivity]. destruct (Nat.eqb_spec (e_to e) d); [congruence|]. cbn. rewrite ?andb_true_r; reflexivity.
  - destruct (Nat.eqb_spec (e_from e) n) as [E|E]; [|rewrite andb_false_r; reflexivity]. destruct (Nat.eqb_spec (e_from e) d); [congruence|]. cbn. rewrite ?andb_true_r; reflexivity.
Qed.
Lemma ts_traverse_agree d s g : agree d s (g_edges g) -> (forall e, In e (g_edges g) -> e_to e <> d) ->
  forall fuel visited queue, ~ In d queue -> ts_traverse fuel s visited queue = traverse fuel true g visited queue.
Proof.
  intros Hs Ht. induction fuel as [|fuel IH]; intros visited queue Hq; [reflexivity|]. destruct queue as [|v q]; [reflexivity|].
  cbn [ts_traverse traverse andb]. assert (Hv : v <> d) by (intros ->; apply Hq; left; reflexivity). destruct (Hs v Hv) as [E1 E2].
  assert (Hq' : ~ In d q) by (intros K; apply Hq; right; exact K).
  rewrite E1, E2. fold (edges_to g v). fold (edges_from g v). destruct (existsb _ (edges_to g v)).
  - apply IH. rewrite in_app_iff. simpl. intuition.
  - destruct (mem v visited); [apply IH; exact Hq'|]. apply IH. rewrite in_app_iff. intros [K|K]; [auto|].
    apply in_map_iff in K as (e & E & K). apply edges_from_in in K as [K _]. exact (Ht e K E).
Qed.
Lemma traverse_more g : forall fuel topo visited queue l, traverse fuel topo g visited queue = Ends l ->
  forall k, fuel <= k -> traverse k topo g visited queue = Ends l.
Proof.
  induction fuel as [|fuel IH]; intros topo visited queue l H k Hk; [discriminate|]. destruct k as [|k]; [lia|]. assert (fuel <= k) by lia.
  destruct queue as [|v q]; [exact H|]. cbn [traverse] in *. destruct (topo && _); [eapply IH; eauto|]. destruct (mem v visited); eapply IH; eauto.
Qed.

(** ** Precedence after a deletion *)
Lemma bridged_linked d es u x y : (forall e, In e es -> e_from e = d -> e_to e <> d) ->
  (linked (Gr (bridged d es) u) x y <-> x <> d /\ y <> d /\ (linked (Gr es u) x y \/ linked (Gr es u) x d /\ linked (Gr es u) d y)).
Proof.
  intros Hself. unfold bridged. rewrite linked_app. split.
  - intros [(e & He & <- & <-)|(e & He & <- & <-)]; cbn [g_edges] in He.
    + apply filter_In in He as [He K]. unfold avoids in K. apply andb_true_iff in K as [K1 K2]. apply negb_true_iff, Nat.eqb_neq in K1.
      apply negb_true_iff, Nat.eqb_neq in K2. split; [exact K1|]. split; [exact K2|]. left. exists e. auto.
    + apply in_concat in He as (l & Hl & He). apply in_map_iff in Hl as (c & <- & Hc). apply in_map_iff in He as (p & <- & Hp).
      apply in_map_iff in Hc as (ec & <- & Hc). apply in_map_iff in Hp as (ep & <- & Hp). apply filter_In in Hc as [Hc E1]. apply filter_In in Hp as [Hp E2].
      apply Nat.eqb_eq in E1. apply Nat.eqb_eq in E2. cbn [e_from e_to]. split; [intros K; exact (Hself ep Hp K E2)|].
      split; [exact (Hself ec Hc E1)|]. right. split; [exists ep; auto|exists ec; auto].
  - intros (Hx & Hy & [(e & He & <- & <-)|[(e1 & H1 & <- & E1) (e2 & H2 & E2 & <-)]]).
    + left. exists e. split; [|auto]. cbn [g_edges]. apply filter_In. split; [exact He|]. unfold avoids. apply Nat.eqb_neq in Hx. apply Nat.eqb_neq in Hy.
      rewrite Hx, Hy. reflexivity.
    + right. exists (Ed (e_from e1) (e_to e2) 0%Z FS). split; [|auto]. cbn [g_edges]. apply in_concat. eexists. split.
      * apply in_map_iff. exists (e_to e2). split; [reflexivity|]. apply in_map. apply filter_In. split; [exact H2|apply Nat.eqb_eq; exact E2].
      * apply in_map_iff. exists (e_from e1). split; [reflexivity|]. apply in_map. apply filter_In. split; [exact H1|apply Nat.eqb_eq; exact E1].
Qed.
Lemma bridge_path (R Q : nat -> nat -> Prop) d : acyclic R ->
  (forall x y, Q x y <-> x <> d /\ y <> d /\ (R x y \/ R x d /\ R d y)) ->
  forall x y, path Q x y <-> path R x y /\ x <> d /\ y <> d.
Proof.
  intros Ha HQ x y. split.
  - intros P. assert (P1 : path R x y /\ x <> d /\ y <> d); [|exact P1]. induction P as [x y K|x y z _ IH1 _ IH2].
    + apply HQ in K as (K1 & K2 & [K|[K3 K4]]); (split; [|auto]); [apply t_step; exact K|eapply t_trans; apply t_step; eassumption].
    + destruct IH1 as (P1 & ? & ?), IH2 as (P2 & ? & ?). split; [eapply t_trans; eauto|auto].
  - intros (P & Hx & Hy). apply clos_trans_t1n in P.
    assert (K : (x <> d -> path Q x y) /\ (x = d -> exists c, R d c /\ path0 Q c y)); [|apply K; exact Hx]. clear Hx.
    induction P as [x y H|x z y H P IH].
    + split; [intros Hx; apply t_step; apply HQ; auto|]. intros ->. exists y. split; [exact H|apply rt_refl].
    + specialize (IH Hy). destruct IH as [IH1 IH2]. split.
      * intros Hx. destruct (Nat.eq_dec z d) as [->|Hz].
        -- destruct (IH2 eq_refl) as (c & Hc & Pc). eapply path_path0_trans; [apply t_step; apply HQ|exact Pc]. split; [exact Hx|]. split; [|auto].
           intros ->. apply (Ha d). apply t_step. exact Hc.
        -- eapply t_trans; [apply t_step; apply HQ; split; [exact Hx|]; split; [exact Hz|left; exact H]|apply IH1; exact Hz].
      * intros ->. exists z. split; [exact H|]. apply path_path0. apply IH1. intros ->. apply (Ha d). apply t_step. exact H.
Qed.

(** ** Traversals that end *)
Lemma traverse_ends_orders g start l rounds : traverse rounds true g [] [start] = Ends l ->
  NoDup l /\ In start l /\ (forall x y, linked g x y -> In x l -> In y l) /\ (forall x y, linked g x y -> In y l -> In x l /\ comes_before l x y).
Proof.
  assert (K : forall fuel visited queue,
    NoDup visited -> (In start visited \/ In start queue) ->
    (forall x y, linked g x y -> In x visited -> In y visited \/ In y queue) ->
    (forall x y, linked g x y -> In y visited -> In x visited /\ comes_before (rev visited) x y) ->
    traverse fuel true g visited queue = Ends l ->
    NoDup l /\ In start l /\ (forall x y, linked g x y -> In x l -> In y l) /\ (forall x y, linked g x y -> In y l -> In x l /\ comes_before l x y)).
  { induction fuel as [|fuel IH]; intros visited queue H1 H2 H3 H4 E; [discriminate|]. destruct queue as [|v q].
    - cbn in E. injection E as <-. split; [apply NoDup_rev; exact H1|]. split; [apply -> in_rev; destruct H2 as [H2|[]]; exact H2|]. split.
      + intros x y L Hx. apply -> in_rev. apply in_rev in Hx. destruct (H3 x y L Hx) as [K|[]]. exact K.
      + intros x y L Hy. apply in_rev in Hy. destruct (H4 x y L Hy) as [K1 K2]. split; [apply -> in_rev; exact K1|exact K2].
    - cbn [traverse andb] in E. destruct (existsb (fun e => negb (mem (e_from e) visited)) (edges_to g v)) eqn:Ex.
      + apply (IH visited (q ++ [v])); try assumption.
        * rewrite in_app_iff. simpl in *. tauto.
        * intros x y L Hx. rewrite in_app_iff. destruct (H3 x y L Hx) as [K|[K|K]]; simpl; auto.
      + assert (Pre : forall x, linked g x v -> In x visited).
        { intros x (e & He & E1 & E2). destruct (mem x visited) eqn:Em; [apply mem_in; exact Em|]. exfalso.
          assert (existsb (fun e => negb (mem (e_from e) visited)) (edges_to g v) = true); [|congruence].
          apply existsb_exists. exists e. split; [apply edges_to_in; auto|]. rewrite E1, Em. reflexivity. }
        destruct (mem v visited) eqn:Em.
        * apply (IH visited q); try assumption.
          -- destruct H2 as [H2|[<-|H2]]; [auto| |auto]. left. apply mem_in. exact Em.
          -- intros x y L Hx. destruct (H3 x y L Hx) as [K|[<-|K]]; [auto| |auto]. left. apply mem_in. exact Em.
        * apply mem_nin in Em. apply (IH (v :: visited) (q ++ map e_to (edges_from g v))); try assumption.
          -- constructor; assumption.
          -- rewrite in_app_iff. simpl in *. tauto.
          -- intros x y L [->|Hx].
             ++ right. apply in_or_app. right. destruct L as (e & He & E1 & E2). apply in_map_iff. exists e. split; [exact E2|]. apply edges_from_in. auto.
             ++ rewrite in_app_iff. destruct (H3 x y L Hx) as [K|[K|K]]; simpl; auto.
          -- intros x y L [<-|Hy].
             ++ assert (Hx := Pre x L). split; [right; exact Hx|]. cbn [rev]. apply comes_before_app_lr; [apply -> in_rev; exact Hx|left; reflexivity].
             ++ destruct (H4 x y L Hy) as [K1 K2]. split; [right; exact K1|]. cbn [rev]. apply comes_before_app_l. exact K2. }
  intros E. eapply K; [| | | |exact E].
  - constructor.
  - right. left. reflexivity.
  - intros x y _ [].
  - intros x y _ [].
Qed.
(** A traversal from which a cycle can be reached never ends. *)
Lemma cycle_never_ends g start x : path0 (linked g) start x -> path (linked g) x x ->
  forall rounds, traverse rounds true g [] [start] = Running.
Proof.
  intros Hr Hc rounds. destruct (traverse rounds true g [] [start]) as [l|] eqn:E; [|reflexivity]. exfalso.
  destruct (traverse_ends_orders g start l rounds E) as (Hn & Hs & Hsucc & Hord).
  assert (Hx : In x l).
  { assert (Q : forall a b, path0 (linked g) a b -> In a l -> In b l) by (induction 1 as [a b L|a|a b c _ IH1 _ IH2]; eauto). eauto. }
  assert (P : forall a b, path (linked g) a b -> In a l -> In b l /\ comes_before l a b).
  { induction 1 as [a b L|a b c _ IH1 _ IH2]; intros Ha.
    - assert (Hb := Hsucc a b L Ha). split; [exact Hb|]. apply (Hord a b L Hb).
    - destruct (IH1 Ha) as [Hb C1]. destruct (IH2 Hb) as [Hc' C2]. split; [exact Hc'|]. eapply comes_before_trans; eauto. }
  destruct (P x x Hc Hx) as [_ C]. exact (comes_before_irrefl l x Hn C).
Qed.

(** ** Deleting a work *)
Section Delete.
  Variables (ren : nat -> nat) (w : work_graph) (r : nat).
  Hypothesis Hp : project w.
  Hypothesis Hi : one_to_one ren (wg_nodes w).
  Hypothesis Hr : In r (wg_nodes w).
  Hypothesis Hrs : r <> wg_start w.
  Hypothesis Hrf : r <> wg_finish w.
  Hypothesis Hdep : forall e, In e (g_edges (wg_graph w)) -> e_from e = r \/ e_to e = r -> is_dependency (e_type e) = true.
  Let d := ren r.
  Let es := restored_edges ren w [].
  Definition del_graph : graph := Gr (bridged d es) (copied_unit ren w (fun _ => no_unit)).
  Definition others : list nat := filter (fun n => negb (Nat.eqb n r)) (wg_nodes w).
  Lemma others_in n : In n others <-> In n (wg_nodes w) /\ n <> r.
  Proof. unfold others. rewrite filter_In, negb_true_iff, Nat.eqb_neq. reflexivity. Qed.
  Lemma ren_d n : In n (wg_nodes w) -> (ren n = d <-> n = r).
  Proof. intros Hn. split; [apply Hi; assumption|intros ->; reflexivity]. Qed.
  Lemma es_edge e : In e es <-> exists e0, In e0 (g_edges (wg_graph w)) /\ e = rename_edge ren e0.
  Proof.
    assert (P := restored_perm ren w [] Hp). rewrite filter_all in P by reflexivity. fold es in P. split.
    - intros H. apply (Permutation_in _ P) in H. apply in_map_iff in H as (e0 & <- & H). eauto.
    - intros (e0 & H & ->). apply (Permutation_in _ (Permutation_sym P)). apply in_map. exact H.
  Qed.
  Lemma es_dep e : In e es -> e_from e = d \/ e_to e = d -> is_dependency (e_type e) = true.
  Proof.
    intros He K. apply es_edge in He as (e0 & He & ->). cbn [rename_edge e_from e_to e_type] in *.
    destruct (pj_closed w Hp (e_from e0) (e_to e0)) as [H1 H2]; [exists e0; auto|]. apply (Hdep e0 He). rewrite <- (ren_d _ H1), <- (ren_d _ H2). exact K.
  Qed.
  Lemma es_linked u x y : linked (Gr es u) x y <-> image ren (linked (wg_graph w)) x y.
  Proof. apply (copy_linked ren w u x y Hp). Qed.
  Lemma es_self e : In e es -> e_from e = d -> e_to e <> d.
  Proof.
    intros He E1 E2. assert (L : linked (Gr es (fun _ => no_unit)) d d) by (exists e; auto). apply es_linked in L.
    destruct L as (a & b & Ea & Eb & L). destruct (pj_closed w Hp a b L) as [H1 H2]. apply (ren_d a H1) in Ea. apply (ren_d b H2) in Eb. subst.
    apply (pj_acyclic w Hp r). apply t_step. exact L.
  Qed.
  Lemma del_linked x y : linked del_graph x y <-> x <> d /\ y <> d
    /\ (image ren (linked (wg_graph w)) x y \/ image ren (linked (wg_graph w)) x d /\ image ren (linked (wg_graph w)) d y).
  Proof. unfold del_graph. rewrite (bridged_linked d es _ x y es_self), !es_linked. reflexivity. Qed.
  Lemma del_path x y : path (linked del_graph) x y <-> path (image ren (linked (wg_graph w))) x y /\ x <> d /\ y <> d.
  Proof.
    apply bridge_path; [|exact del_linked]. apply (image_acyclic ren _ (wg_nodes w) Hi (pj_closed w Hp) (pj_acyclic w Hp)).
  Qed.
  Lemma del_nodes_in x : In x (map ren others) <-> exists n, x = ren n /\ In n (wg_nodes w) /\ n <> r.
  Proof.
    rewrite in_map_iff. split; [intros (n & <- & H); apply others_in in H; exists n; tauto|].
    intros (n & -> & H1 & H2). exists n. split; [reflexivity|]. apply others_in. auto.
  Qed.
  Lemma image_nodes x y : image ren (linked (wg_graph w)) x y -> exists a b, x = ren a /\ y = ren b /\ In a (wg_nodes w) /\ In b (wg_nodes w).
  Proof. intros (a & b & <- & <- & L). destruct (pj_closed w Hp a b L). exists a, b. auto. Qed.
  Lemma del_closed x y : linked del_graph x y -> In x (map ren others) /\ In y (map ren others).
  Proof.
    rewrite del_linked, !del_nodes_in. intros (Hx & Hy & K).
    assert (Q : exists a b, x = ren a /\ y = ren b /\ In a (wg_nodes w) /\ In b (wg_nodes w)).
    { destruct K as [K|[K1 K2]]; [apply image_nodes; exact K|]. apply image_nodes in K1 as (a & _ & -> & _ & Ha & _).
      apply image_nodes in K2 as (_ & b & _ & -> & _ & Hb). exists a, b. auto. }
    destruct Q as (a & b & -> & -> & Ha & Hb). rewrite (ren_d a Ha) in Hx. rewrite (ren_d b Hb) in Hy. split; eexists; eauto.
  Qed.
  Lemma del_nodup : NoDup (map ren others).
  Proof.
    apply NoDup_map_inj; [|apply NoDup_filter, (pj_nodup w Hp)]. intros a b Ha Hb. apply others_in in Ha as [Ha _]. apply others_in in Hb as [Hb _]. apply Hi; assumption.
  Qed.
  Lemma del_start : single_start del_graph (map ren others) (ren (wg_start w)).
  Proof.
    split; [apply in_map, others_in; split; [apply (pj_start w Hp)|auto]|]. intros x Hx. apply del_nodes_in in Hx as (n & -> & Hn & Hnr).
    destruct (proj2 (pj_start w Hp) n Hn) as [->|(p & L)]; [auto|right]. destruct (pj_closed w Hp p n L) as [Hpn _]. destruct (Nat.eq_dec p r) as [->|Npr].
    - destruct (proj2 (pj_start w Hp) r Hr) as [E|(q & Lq)]; [congruence|]. destruct (pj_closed w Hp q r Lq) as [Hq _].
      exists (ren q). apply del_linked. rewrite (ren_d q Hq), (ren_d n Hn). split; [|split; [exact Hnr|right; split; [exists q, r; auto|exists r, n; auto]]].
      intros ->. apply (pj_acyclic w Hp r). apply t_step. exact Lq.
    - exists (ren p). apply del_linked. rewrite (ren_d p Hpn), (ren_d n Hn). split; [exact Npr|]. split; [exact Hnr|]. left. exists p, n. auto.
  Qed.
  Lemma del_finish : single_finish del_graph (map ren others) (ren (wg_finish w)).
  Proof.
    split; [apply in_map, others_in; split; [apply (pj_finish w Hp)|auto]|]. intros x Hx. apply del_nodes_in in Hx as (n & -> & Hn & Hnr).
    destruct (proj2 (pj_finish w Hp) n Hn) as [->|(p & L)]; [auto|right]. destruct (pj_closed w Hp n p L) as [_ Hpn]. destruct (Nat.eq_dec p r) as [->|Npr].
    - destruct (proj2 (pj_finish w Hp) r Hr) as [E|(q & Lq)]; [congruence|]. destruct (pj_closed w Hp r q Lq) as [_ Hq].
      exists (ren q). apply del_linked. rewrite (ren_d q Hq), (ren_d n Hn). split; [exact Hnr|]. split; [|right; split; [exists n, r; auto|exists r, q; auto]].
      intros ->. apply (pj_acyclic w Hp r). apply t_step. exact Lq.
    - exists (ren p). apply del_linked. rewrite (ren_d p Hpn), (ren_d n Hn). split; [exact Hnr|]. split; [exact Npr|]. left. exists n, p. auto.
  Qed.
  Lemma del_acyclic : acyclic (linked del_graph).
  Proof.
    intros x P. apply del_path in P as [P _]. revert P. apply (image_acyclic ren _ (wg_nodes w) Hi (pj_closed w Hp) (pj_acyclic w Hp)).
  Qed.
  Lemma find_filter {A} (p : A -> bool) l : find p l = match filter p l with [] => None | x :: _ => Some x end.
  Proof. induction l as [|x l IH]; [reflexivity|]. simpl. destruct (p x); [reflexivity|exact IH]. Qed.
  Lemma sides_son u n : ts_son (sides es) n = inseparable_son (Gr es u) n.
  Proof. unfold ts_son, inseparable_son, sides, edges_from. cbn [ts_from g_edges]. rewrite find_filter. destruct (filter _ (filter _ es)); reflexivity. Qed.
  Lemma sides_parent u n : ts_parent (sides es) n = inseparable_parent (Gr es u) n.
  Proof. unfold ts_parent, inseparable_parent, sides, edges_to. cbn [ts_to g_edges]. rewrite find_filter. destruct (filter _ (filter _ es)); reflexivity. Qed.
  Hypothesis Hhead : (forall e, In e (g_edges (wg_graph w)) -> e_from e = r -> e_type e <> IFS)
    \/ (exists e, In e (g_edges (wg_graph w)) /\ e_to e = r /\ e_type e = IFS).
  Lemma del_runs rounds : delete_node ren w r rounds
    = Some (ts_traverse rounds (node_deletion d (sides es)) [] [ren (wg_start w)], node_deletion d (sides es)).
  Proof.
    unfold delete_node. rewrite (prepare_copy_all ren w Hp), (proj2 (mem_in r _) Hr). cbv zeta. fold d. fold es.
    assert (E : match ts_son (sides es) d, ts_parent (sides es) d with
          | Some _, None => match chain_of (Gr es (fun _ => no_unit)) d with None => None
              | Some chain => Some (delete_backwards (length es) (sides es) (last chain d)) end
          | _, _ => Some (node_deletion d (sides es), [d]) end = Some (node_deletion d (sides es), [d])).
    { destruct (ts_son (sides es) d) as [sn|] eqn:Es; [|reflexivity]. destruct (ts_parent (sides es) d) as [pn|] eqn:Epn; [reflexivity|]. exfalso.
      destruct Hhead as [K|(e & He & E1 & E2)].
      - unfold ts_son in Es. destruct (find _ _) as [e|] eqn:Ef; [|discriminate]. apply find_some in Ef as [He Et]. cbn [sides ts_from] in He. apply filter_In in He as [He Ee].
        apply Nat.eqb_eq in Ee. apply es_edge in He as (e0 & He & ->). cbn in Ee, Et. destruct (pj_closed w Hp (e_from e0) (e_to e0)) as [H1 _]; [exists e0; auto|].
        apply (ren_d _ H1) in Ee. apply (K e0 He Ee). destruct (e_type e0); (discriminate || reflexivity).
      - unfold ts_parent in Epn. destruct (find _ _) as [e'|] eqn:Ef; [discriminate|].
        assert (Q : In (rename_edge ren e) (ts_to (sides es) d)).
        { cbn [sides ts_to]. apply filter_In. split; [apply es_edge; eauto|]. cbn. rewrite E1. apply Nat.eqb_refl. }
        eapply find_none in Ef; [|exact Q]. cbn in Ef. rewrite E2 in Ef. discriminate. }
    rewrite E. cbn [mem existsb]. rewrite !orb_false_r.
    destruct (Nat.eqb_spec (ren (wg_start w)) d) as [K|_]; [apply (ren_d _ (proj1 (pj_start w Hp))) in K; congruence|].
    destruct (Nat.eqb_spec (ren (wg_finish w)) d) as [K|_]; [apply (ren_d _ (proj1 (pj_finish w Hp))) in K; congruence|]. reflexivity.
  Qed.
  Lemma del_correct : exists l, (forall rounds, traverse_rounds del_graph <= rounds -> delete_node ren w r rounds = Some (Ends l, node_deletion d (sides es)))
    /\ Permutation l (map ren others) /\ project (WG del_graph (ren (wg_start w)) (ren (wg_finish w)) l) /\ topological (linked del_graph) l
    /\ (forall n, In n l -> ts_to (node_deletion d (sides es)) n = edges_to del_graph n /\ ts_from (node_deletion d (sides es)) n = edges_from del_graph n).
  Proof.
    destruct (make_project del_graph (ren (wg_start w)) (ren (wg_finish w)) (map ren others) del_acyclic del_closed del_nodup del_start) as (w' & E & Eg & Es & Ef & P & T & Q).
    assert (Qp := Q del_finish). clear Q. unfold make_work_graph in E. destruct (traverse_children true del_graph (ren (wg_start w))) as [l|] eqn:Et; [|discriminate].
    injection E as <-. cbn [wg_nodes] in *. exists l.
    assert (Ag := deletion_agree d es es_dep).
    split; [|split; [exact P|]; split; [exact Qp|]; split; [exact T|]].
    - intros rounds Hr'. rewrite del_runs. f_equal. f_equal. rewrite (ts_traverse_agree d _ del_graph Ag).
      + eapply traverse_more; [exact Et|exact Hr'].
      + intros e He E1. assert (L : linked del_graph (e_from e) (e_to e)) by (exists e; auto). apply del_linked in L. tauto.
      + intros [K|[]]. apply (ren_d _ (proj1 (pj_start w Hp))) in K. congruence.
    - intros n Hn. apply (Permutation_in _ P) in Hn. apply del_nodes_in in Hn as (m & -> & Hm & Hmr). apply Ag. rewrite (ren_d m Hm). exact Hmr.
  Qed.
  Lemma del_edge e : In e (g_edges del_graph) <->
    (exists e0, In e0 (g_edges (wg_graph w)) /\ e_from e0 <> r /\ e_to e0 <> r /\ e = rename_edge ren e0)
    \/ (exists p c, linked (wg_graph w) p r /\ linked (wg_graph w) r c /\ e = Ed (ren p) (ren c) 0%Z FS).
  Proof.
    unfold del_graph, bridged. cbn [g_edges]. rewrite in_app_iff. split.
    - intros [H|H].
      + left. apply filter_In in H as [H K]. apply es_edge in H as (e0 & H & ->). exists e0. split; [exact H|]. unfold avoids in K. cbn in K.
        apply andb_true_iff in K as [K1 K2]. apply negb_true_iff, Nat.eqb_neq in K1. apply negb_true_iff, Nat.eqb_neq in K2.
        split; [intros E; apply K1; rewrite E; reflexivity|]. split; [intros E; apply K2; rewrite E; reflexivity|reflexivity].
      + right. apply in_concat in H as (l & Hl & H). apply in_map_iff in Hl as (c & <- & Hc). apply in_map_iff in H as (p & <- & Hpp).
        apply in_map_iff in Hc as (ec & <- & Hc). apply in_map_iff in Hpp as (ep & <- & Hpp). apply filter_In in Hc as [Hc E1]. apply filter_In in Hpp as [Hpp E2].
        apply Nat.eqb_eq in E1. apply Nat.eqb_eq in E2. apply es_edge in Hc as (e1 & Hc & ->). apply es_edge in Hpp as (e2 & Hpp & ->). cbn in *.
        assert (L1 : linked (wg_graph w) (e_from e1) (e_to e1)) by (exists e1; auto). assert (L2 : linked (wg_graph w) (e_from e2) (e_to e2)) by (exists e2; auto).
        destruct (pj_closed w Hp _ _ L1) as [N1 _]. destruct (pj_closed w Hp _ _ L2) as [_ N2]. apply (ren_d _ N1) in E1. apply (ren_d _ N2) in E2.
        rewrite E1 in L1. rewrite E2 in L2. exists (e_from e2), (e_to e1). auto.
    - intros [(e0 & H & H1 & H2 & ->)|(p & c & (ep & H1 & E1 & E2) & (ec & H2 & E3 & E4) & ->)].
      + left. apply filter_In. split; [apply es_edge; eauto|]. unfold avoids. cbn.
        destruct (pj_closed w Hp (e_from e0) (e_to e0)) as [N1 N2]; [exists e0; auto|].
        destruct (Nat.eqb_spec (ren (e_from e0)) d) as [E|_]; [apply (ren_d _ N1) in E; congruence|].
        destruct (Nat.eqb_spec (ren (e_to e0)) d) as [E|_]; [apply (ren_d _ N2) in E; congruence|]. reflexivity.
      + right. apply in_concat. eexists. split.
        * apply in_map_iff. exists (ren c). split; [reflexivity|]. apply in_map_iff. exists (rename_edge ren ec). cbn. split; [congruence|].
          apply filter_In. split; [apply es_edge; eauto|]. apply Nat.eqb_eq. cbn. rewrite E3. reflexivity.
        * apply in_map_iff. exists (ren p). split; [reflexivity|]. apply in_map_iff. exists (rename_edge ren ep). cbn. split; [congruence|].
          apply filter_In. split; [apply es_edge; eauto|]. apply Nat.eqb_eq. cbn. rewrite E2. reflexivity.
  Qed.
  Lemma del_precedes a b : In a others -> In b others -> (path (linked del_graph) (ren a) (ren b) <-> precedes w a b).
  Proof.
    intros Ha Hb. apply others_in in Ha as [Ha Ha']. apply others_in in Hb as [Hb Hb']. rewrite del_path, (ren_d a Ha), (ren_d b Hb), (image_pre ren w a b Hp Hi Ha Hb). tauto.
  Qed.
End Delete.
