(** Lemmas about inseparable chains and the collapsing of chains to head nodes. *)
From Coq Require Import ZArith List Bool Lia Arith Relations Sorted Permutation.
From Verif Require Import TimeModel MomentumModel GraphModel ScheduleModel ScheduleSpec ScheduleInv Digraph StableSort TopoModel TopoProofs
  TopoTheorems HeadModel.
Import ListNotations.

(** [y] must directly follow [x] (an inseparable edge). *)
Definition inseparable (g : graph) (x y : nat) : Prop :=
  exists e, In e (g_edges g) /\ e_type e = IFS /\ e_from e = x /\ e_to e = y.
(** Inseparable edges form disjoint chains. *)
Definition chains_wf (g : graph) : Prop :=
  (forall x x' y, inseparable g x y -> inseparable g x' y -> x = x') /\
  (forall x y y', inseparable g x y -> inseparable g x y' -> y = y') /\
  acyclic (inseparable g).
(** [v] is [h] or follows it in its chain. *)
Definition in_chain (g : graph) (h v : nat) : Prop := path0 (inseparable g) h v.
(** The first works of the chains (a work without inseparable edges is a chain). *)
Definition is_head (g : graph) (nodes : list nat) (h : nat) : Prop :=
  In h nodes /\ forall x, ~ inseparable g x h.
(** Some work of the chain of [h] depends on some work of the chain of [p]. *)
Definition prerequisite (g : graph) (p h : nat) : Prop :=
  p <> h /\ exists u v, depends_on g u v /\ in_chain g p u /\ in_chain g h v.

(** ** Generalities *)
Lemma all_some_spec {A B} (f : A -> option B) l r : all_some (map f l) = Some r <-> Forall2 (fun a b => f a = Some b) l r.
Proof.
  revert r. induction l as [|a l IH]; intros r; simpl.
  - split; [intros [= <-]; constructor|intros H; inversion H; reflexivity].
  - destruct (f a) as [b|] eqn:E.
    + destruct (all_some (map f l)) as [r'|] eqn:E'.
      * split.
        -- intros [= <-]. constructor; [exact E|]. apply IH. reflexivity.
        -- intros H. inversion H; subst. assert (b = y) by congruence. apply IH in H4. injection H4 as ->. congruence.
      * split; [discriminate|]. intros H. inversion H; subst. apply IH in H4. discriminate.
    + split; [discriminate|]. intros H. inversion H; subst. congruence.
Qed.
Lemma all_some_exists {A B} (f : A -> option B) l : (forall a, In a l -> exists b, f a = Some b) -> exists r, all_some (map f l) = Some r.
Proof.
  induction l as [|a l IH]; intros H; simpl; [eauto|].
  destruct (H a) as [b ->]; [left; reflexivity|]. destruct IH as [r ->]; [intros; apply H; right; assumption|]. eauto.
Qed.
Lemma forall2_in_l {A B} (P : A -> B -> Prop) l r a : Forall2 P l r -> In a l -> exists b, In b r /\ P a b.
Proof.
  induction 1 as [|x y l r H HF IH]; intros Ha; [destruct Ha|]. destruct Ha as [<-|Ha]; [exists y; simpl; auto|].
  destruct (IH Ha) as (b & Hb & HP). exists b. simpl. auto.
Qed.
Lemma forall2_in_r {A B} (P : A -> B -> Prop) l r b : Forall2 P l r -> In b r -> exists a, In a l /\ P a b.
Proof.
  induction 1 as [|x y l r H HF IH]; intros Hb; [destruct Hb|]. destruct Hb as [<-|Hb]; [exists x; simpl; auto|].
  destruct (IH Hb) as (a & Ha & HP). exists a. simpl. auto.
Qed.

(** ** Inseparable neighbours *)
Lemma son_some g n s : inseparable_son g n = Some s -> inseparable g n s.
Proof.
  unfold inseparable_son. destruct (filter (fun e => is_ifs (e_type e)) (edges_from g n)) as [|e r] eqn:E; [discriminate|].
  intros [= <-]. assert (H : In e (e :: r)) by (left; reflexivity). rewrite <- E in H.
  apply filter_In in H as [H Ht]. unfold edges_from in H. apply filter_In in H as [H Hf]. apply Nat.eqb_eq in Hf.
  exists e. split; [exact H|]. split; [destruct (e_type e); simpl in Ht; congruence|auto].
Qed.
Lemma son_none g n : inseparable_son g n = None -> forall s, ~ inseparable g n s.
Proof.
  unfold inseparable_son. destruct (filter (fun e => is_ifs (e_type e)) (edges_from g n)) as [|e r] eqn:E; [|discriminate].
  intros _ s (e & He & Ht & Hf & _). assert (H : In e []) by (rewrite <- E; apply filter_In; split;
    [unfold edges_from; apply filter_In; split; [exact He|apply Nat.eqb_eq; exact Hf]|rewrite Ht; reflexivity]). destruct H.
Qed.
Lemma parent_some g n s : inseparable_parent g n = Some s -> inseparable g s n.
Proof.
  unfold inseparable_parent. destruct (filter (fun e => is_ifs (e_type e)) (edges_to g n)) as [|e r] eqn:E; [discriminate|].
  intros [= <-]. assert (H : In e (e :: r)) by (left; reflexivity). rewrite <- E in H.
  apply filter_In in H as [H Ht]. unfold edges_to in H. apply filter_In in H as [H Hf]. apply Nat.eqb_eq in Hf.
  exists e. split; [exact H|]. split; [destruct (e_type e); simpl in Ht; congruence|auto].
Qed.
Lemma parent_none g n : inseparable_parent g n = None <-> forall s, ~ inseparable g s n.
Proof.
  split.
  - unfold inseparable_parent. destruct (filter (fun e => is_ifs (e_type e)) (edges_to g n)) as [|e r] eqn:E; [|discriminate].
    intros _ s (e & He & Ht & _ & Hf). assert (H : In e []) by (rewrite <- E; apply filter_In; split;
      [unfold edges_to; apply filter_In; split; [exact He|apply Nat.eqb_eq; exact Hf]|rewrite Ht; reflexivity]). destruct H.
  - intros H. destruct (inseparable_parent g n) as [s|] eqn:E; [|reflexivity]. apply parent_some in E. destruct (H s E).
Qed.
Lemma heads_in g nodes h : In h (heads g nodes) <-> is_head g nodes h.
Proof.
  unfold heads, is_head, is_son. rewrite filter_In, <- parent_none. destruct (inseparable_parent g h); simpl; intuition congruence.
Qed.

Section Chains.
  Variable g : graph.
  Hypothesis Hwf : chains_wf g.
  Let I := inseparable g.

  Lemma ins_path_step n s v : I n s -> (path I n v <-> v = s \/ path I s v).
  Proof.
    intros Hs. split.
    - intros H. apply clos_trans_t1n in H. inversion H as [y Hy|y z Hy Hz]; subst.
      + left. apply (proj1 (proj2 Hwf) n); assumption.
      + right. assert (y = s) by (apply (proj1 (proj2 Hwf) n); assumption). subst. apply clos_t1n_trans. exact Hz.
    - intros [->|H]; [apply t_step; exact Hs|]. eapply t_trans; [apply t_step; exact Hs|exact H].
  Qed.

  Lemma ins_children_spec : forall fuel n seen, NoDup seen -> incl seen (map e_to (g_edges g)) ->
    (forall s, In s seen -> path0 I s n) -> length (g_edges g) < length seen + fuel ->
    exists r, inseparable_children fuel g n = Some r /\ (forall v, In v r <-> path I n v) /\ StronglySorted (path I) (n :: r).
  Proof.
    induction fuel as [|fuel IH]; intros n seen Hnd Hi Hseen Hlen.
    - exfalso. assert (H := NoDup_incl_length Hnd Hi). rewrite map_length in H. lia.
    - cbn [inseparable_children]. destruct (inseparable_son g n) as [s|] eqn:Es.
      + apply son_some in Es. destruct (IH s (s :: seen)) as (r & Hr & Hv & Hs).
        * constructor; [|exact Hnd]. intros H. apply Hseen in H. apply (proj2 (proj2 Hwf) s).
          apply path0_path in H as [->|H]; [apply t_step; exact Es|]. eapply t_trans; [exact H|apply t_step; exact Es].
        * intros x [<-|Hx]; [|apply Hi; exact Hx]. destruct Es as (e & He & _ & _ & <-). apply in_map. exact He.
        * intros x [<-|Hx]; [apply rt_refl|]. eapply rt_trans; [apply Hseen; exact Hx|apply rt_step; exact Es].
        * cbn [length]. lia.
        * rewrite Hr. exists (s :: r). split; [reflexivity|]. split.
          -- intros v. rewrite (ins_path_step n s v Es). simpl. rewrite Hv. intuition congruence.
          -- constructor; [exact Hs|]. apply Forall_forall. intros v Hv'. apply (ins_path_step n s v Es).
             destruct Hv' as [<-|Hv']; [auto|]. right. apply Hv. exact Hv'.
      + exists []. split; [reflexivity|]. split.
        * intros v. split; [intros []|]. intros H. exfalso. apply clos_trans_t1n in H.
          inversion H; subst; eapply (son_none g n Es); eauto.
        * repeat constructor.
  Qed.

  (** the chain of a head *)
  Lemma chain_of_head h : (forall x, ~ I x h) ->
    exists c, chain_of g h = Some c /\ (forall v, In v c <-> in_chain g h v) /\ StronglySorted (path I) c.
  Proof.
    intros Hh. unfold chain_of. rewrite (proj2 (parent_none g h) Hh).
    destruct (inseparable_son g h) as [s|] eqn:Es.
    - destruct (ins_children_spec (S (length (g_edges g))) h []) as (r & -> & Hv & Hs).
      + constructor.
      + intros x [].
      + intros x [].
      + simpl. lia.
      + exists (h :: r). split; [reflexivity|]. split; [|exact Hs]. intros v. simpl. rewrite Hv. unfold in_chain. split.
        * intros [<-|H]; [apply rt_refl|apply path_path0; exact H].
        * intros H. apply path0_path in H as [H|H]; auto.
    - exists [h]. split; [reflexivity|]. split; [|repeat constructor]. intros v. unfold in_chain. split.
      + intros [<-|[]]. apply rt_refl.
      + intros H. apply path0_path in H as [H|H]; [left; exact H|]. exfalso. apply clos_trans_t1n in H.
        inversion H; subst; eapply (son_none g h Es); eauto.
  Qed.

  Lemma path0_connected a b v : path0 I a v -> path0 I b v -> path0 I a b \/ path0 I b a.
  Proof.
    intros Ha Hb. apply clos_rt_rtn1 in Ha. revert Hb. induction Ha as [|y z Hyz Ha IH]; intros Hb; [right; exact Hb|].
    apply path0_last in Hb as [->|(p & Hp & Hpz)].
    - left. apply clos_rtn1_rt. econstructor; eauto.
    - assert (p = y) by (apply (proj1 Hwf p y z); assumption). subst. apply IH. exact Hp.
  Qed.
  Lemma head_unique h h' v : (forall x, ~ I x h) -> (forall x, ~ I x h') -> in_chain g h v -> in_chain g h' v -> h = h'.
  Proof.
    intros Hh Hh' H H'. destruct (path0_connected h h' v H H') as [P|P]; apply path0_last in P as [E|(p & _ & P)]; auto.
    - destruct (Hh' p P).
    - destruct (Hh p P).
  Qed.

  Variable nodes : list nat.
  Hypothesis Hcl : forall e, In e (g_edges g) -> In (e_from e) nodes /\ In (e_to e) nodes.

  Lemma head_above : forall fuel v seen, NoDup seen -> incl seen nodes -> In v seen ->
    (forall s, In s seen -> path0 I v s) -> length nodes < length seen + fuel ->
    exists h, is_head g nodes h /\ in_chain g h v.
  Proof.
    induction fuel as [|fuel IH]; intros v seen Hnd Hi Hv Hseen Hlen.
    - exfalso. assert (H := NoDup_incl_length Hnd Hi). lia.
    - destruct (inseparable_parent g v) as [p|] eqn:Ep.
      + apply parent_some in Ep. destruct (IH p (p :: seen)) as (h & Hh & Hp).
        * constructor; [|exact Hnd]. intros H. apply Hseen in H. apply (proj2 (proj2 Hwf) p).
          apply path0_path in H as [<-|H]; [apply t_step; exact Ep|]. eapply t_trans; [apply t_step; exact Ep|exact H].
        * intros x [<-|Hx]; [|apply Hi; exact Hx]. destruct Ep as (e & He & _ & <- & _). apply (Hcl e He).
        * left. reflexivity.
        * intros x [<-|Hx]; [apply rt_refl|]. eapply rt_trans; [apply rt_step; exact Ep|apply Hseen; exact Hx].
        * cbn [length]. lia.
        * exists h. split; [exact Hh|]. eapply rt_trans; [exact Hp|apply rt_step; exact Ep].
      + exists v. split; [|apply rt_refl]. split; [apply Hi; exact Hv|]. apply parent_none. exact Ep.
  Qed.
  Lemma has_head v : In v nodes -> exists h, is_head g nodes h /\ in_chain g h v.
  Proof.
    intros Hv. apply (head_above (length nodes) v [v]).
    - repeat constructor. intros [].
    - intros x [<-|[]]. exact Hv.
    - left. reflexivity.
    - intros s [<-|[]]. apply rt_refl.
    - simpl. lia.
  Qed.

  (** ** The mapping of chain members to heads *)
  Lemma entry_get_in l m h : entry_get l m = Some h -> In (m, h) l.
  Proof.
    induction l as [|[k v] l IH]; simpl; [discriminate|]. destruct (entry_get l m) as [x|]; [intros [= ->]; auto|].
    destruct (Nat.eqb_spec k m); [|discriminate]. intros [= ->]. subst. auto.
  Qed.
  Lemma entry_get_some l m h : In (m, h) l -> exists h', entry_get l m = Some h'.
  Proof.
    induction l as [|[k v] l IH]; simpl; intros H; [destruct H|]. destruct (entry_get l m) as [x|]; [eauto|].
    destruct H as [[= -> ->]|H]; [rewrite Nat.eqb_refl; eauto|]. destruct (IH H). discriminate.
  Qed.
  Lemma head_entries_spec : exists entries, head_entries g (heads g nodes) = Some entries /\
    forall m h, entry_get entries m = Some h <-> is_head g nodes h /\ in_chain g h m.
  Proof.
    unfold head_entries. destruct (all_some_exists (chain_entries g) (heads g nodes)) as [l E].
    { intros h Hh. apply heads_in in Hh as [_ Hh]. destruct (chain_of_head h Hh) as (c & Hc & _). unfold chain_entries. rewrite Hc. eauto. }
    rewrite E. exists (concat l). split; [reflexivity|]. apply all_some_spec in E.
    assert (Hin : forall m h, In (m, h) (concat l) <-> is_head g nodes h /\ in_chain g h m).
    { intros m h. rewrite in_concat. split.
      - intros (x & Hx & Hm). destruct (forall2_in_r _ _ _ _ E Hx) as (n & Hn & Ex). apply heads_in in Hn.
        destruct (chain_of_head n (proj2 Hn)) as (c & Hc & Hv & _). unfold chain_entries in Ex. rewrite Hc in Ex. injection Ex as <-.
        apply in_map_iff in Hm as (y & [= <- <-] & Hy). split; [exact Hn|]. apply Hv. exact Hy.
      - intros [Hh Hm]. apply heads_in in Hh as Hh'. destruct (forall2_in_l _ _ _ _ E Hh') as (x & Hx & Ex).
        destruct (chain_of_head h (proj2 Hh)) as (c & Hc & Hv & _). unfold chain_entries in Ex. rewrite Hc in Ex. injection Ex as <-.
        eexists. split; [exact Hx|]. apply in_map_iff. exists m. split; [reflexivity|]. apply Hv. exact Hm. }
    intros m h. split.
    - intros H. apply Hin. apply entry_get_in. exact H.
    - intros H. assert (H' := H). apply Hin in H'. apply entry_get_some in H' as [h' H']. rewrite H'. f_equal.
      apply entry_get_in, Hin in H'. apply (head_unique h' h m); [apply (proj1 H')|apply (proj1 H)|apply H'|apply H].
  Qed.

  (** ** Connections *)
  Lemma connections_spec entries neighbours h :
    (forall m h, entry_get entries m = Some h <-> is_head g nodes h /\ in_chain g h m) ->
    (forall v u, In u (neighbours v) -> In u nodes) -> is_head g nodes h ->
    exists l, connections g entries neighbours h = Some l /\ NoDup l /\
      forall p, In p l <-> p <> h /\ is_head g nodes p /\ exists u v, In u (neighbours v) /\ in_chain g h v /\ in_chain g p u.
  Proof.
    intros He Hn Hh. unfold connections. destruct (chain_of_head h (proj2 Hh)) as (c & -> & Hv & _).
    destruct (all_some_exists (entry_get entries) (concat (map neighbours c))) as [l E].
    { intros u Hu. apply in_concat in Hu as (x & Hx & Hu). apply in_map_iff in Hx as (v & <- & _).
      apply Hn in Hu. apply has_head in Hu as (p & Hp). exists p. apply He. exact Hp. }
    rewrite E. apply all_some_spec in E. eexists. split; [reflexivity|]. split.
    { apply NoDup_filter. apply NoDup_nodup. }
    intros p. rewrite filter_In, nodup_In, negb_true_iff, Nat.eqb_neq. split.
    - intros [Hp Hne]. destruct (forall2_in_r _ _ _ _ E Hp) as (u & Hu & Ep). apply He in Ep as [Hp1 Hp2].
      apply in_concat in Hu as (x & Hx & Hu). apply in_map_iff in Hx as (v & <- & Hv'). apply Hv in Hv'. eauto 8.
    - intros (Hne & Hp & u & v & Hu & Hc & Hpu). split; [|exact Hne].
      destruct (forall2_in_l _ _ _ u E) as (p' & Hp' & Ep).
      + apply in_concat. exists (neighbours v). split; [apply in_map_iff; exists v; split; [reflexivity|apply Hv; exact Hc]|exact Hu].
      + apply He in Ep as [Ep1 Ep2]. assert (p' = p) by (eapply head_unique; [apply Ep1|apply Hp|exact Ep2|exact Hpu]). subst. exact Hp'.
  Qed.

  Lemma ids_of_in d n l : NoDup (map fst d) -> In (n, l) d -> ids_of d n = l.
  Proof.
    induction d as [|[k x] d IH]; simpl; intros Hnd H; [destruct H|]. inversion Hnd; subst.
    destruct H as [[= -> ->]|H]; [rewrite Nat.eqb_refl; reflexivity|].
    destruct (Nat.eqb_spec k n); [|auto]. subst. exfalso. apply H2. apply in_map_iff. exists (n, l). auto.
  Qed.
  Lemma connection_map_spec entries neighbours :
    (forall m h, entry_get entries m = Some h <-> is_head g nodes h /\ in_chain g h m) ->
    (forall v u, In u (neighbours v) -> In u nodes) -> NoDup nodes ->
    exists d, connection_map g entries neighbours (heads g nodes) = Some d /\ map fst d = heads g nodes /\
      forall h, is_head g nodes h -> NoDup (ids_of d h) /\ In (h, ids_of d h) d /\
      forall p, In p (ids_of d h) <-> p <> h /\ is_head g nodes p /\ exists u v, In u (neighbours v) /\ in_chain g h v /\ in_chain g p u.
  Proof.
    intros He Hn Hnd. unfold connection_map.
    set (f := fun n => match connections g entries neighbours n with Some l => Some (n, l) | None => None end).
    destruct (all_some_exists f (heads g nodes)) as [d E].
    { intros h Hh. apply heads_in in Hh. destruct (connections_spec entries neighbours h He Hn Hh) as (l & Hl & _).
      unfold f. rewrite Hl. eauto. }
    rewrite E. exists d. split; [reflexivity|]. apply all_some_spec in E.
    assert (Hk : map fst d = heads g nodes).
    { clear -E. induction E as [|n x hs d H HF IH]; [reflexivity|]. simpl. rewrite IH. f_equal. unfold f in H.
      destruct (connections g entries neighbours n); [injection H as <-; reflexivity|discriminate]. }
    split; [exact Hk|]. intros h Hh. assert (Hh' := proj2 (heads_in g nodes h) Hh).
    destruct (forall2_in_l _ _ _ _ E Hh') as (x & Hx & Ex).
    destruct (connections_spec entries neighbours h He Hn Hh) as (l & Hl & Hd & Hp). unfold f in Ex. rewrite Hl in Ex. injection Ex as <-.
    assert (Ei : ids_of d h = l).
    { apply ids_of_in; [|exact Hx]. rewrite Hk. apply NoDup_filter. exact Hnd. }
    rewrite Ei. auto.
  Qed.
End Chains.
