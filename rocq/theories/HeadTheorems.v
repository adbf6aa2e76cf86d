(** C40: the head nodes and the mappings of their prerequisites and dependants. *)
From Coq Require Import ZArith List Bool Lia Arith Relations Sorted Permutation.
From Verif Require Import TimeModel MomentumModel GraphModel ScheduleModel ScheduleSpec ScheduleInv Digraph StableSort TopoModel TopoProofs
  TopoTheorems HeadModel HeadProofs.
Import ListNotations.

(** The chain of a head: its members in the order of the inseparable edges. *)
Theorem inseparable_chain_correct :
  forall g h, chains_wf g -> (forall x, ~ inseparable g x h) ->
    exists c, chain_of g h = Some c /\ NoDup c /\ (forall v, In v c <-> in_chain g h v) /\
      (forall u v, comes_before c u v <-> in_chain g h u /\ path (inseparable g) u v).
Proof.
  intros g h Hwf Hh. destruct (chain_of_head g Hwf h Hh) as (c & Hc & Hv & Hs). exists c.
  assert (Hnd : NoDup c) by (eapply walk_nodup; [apply (proj2 (proj2 Hwf))|exact Hs]).
  assert (Hcb : forall u v, comes_before c u v -> path (inseparable g) u v).
  { intros u v (l1 & l2 & l3 & E). rewrite E in Hs. clear -Hs. induction l1 as [|x l1 IH]; simpl in Hs; apply StronglySorted_inv in Hs as [Hs Hf].
    - rewrite Forall_forall in Hf. apply Hf. apply in_or_app. right. left. reflexivity.
    - apply IH. exact Hs. }
  split; [exact Hc|]. split; [exact Hnd|]. split; [exact Hv|]. intros u v. split.
  - intros H. split; [|apply Hcb; exact H]. apply Hv. apply (comes_before_in _ _ _ H).
  - intros [Hu Huv]. assert (Hvc : In v c) by (apply Hv; eapply rt_trans; [exact Hu|apply path_path0; exact Huv]).
    apply Hv in Hu. destruct (comes_before_total c u v Hu Hvc) as [H|H]; [intros ->; apply (proj2 (proj2 Hwf) v Huv)|exact H|].
    exfalso. apply (proj2 (proj2 Hwf) u). eapply t_trans; [exact Huv|apply Hcb; exact H].
Qed.
Print Assumptions inseparable_chain_correct.

Theorem head_nodes_correct :
  forall g nodes, NoDup nodes -> (forall e, In e (g_edges g) -> In (e_from e) nodes /\ In (e_to e) nodes) -> chains_wf g ->
    (* every work is in the chain of exactly one head *)
    (forall v, In v nodes -> exists! h, is_head g nodes h /\ in_chain g h v) /\
    ((exists order parent_ids child_ids, head_nodes g nodes = Heads order parent_ids child_ids /\
        (* the heads, each once, after everything they depend on *)
        NoDup order /\ (forall h, In h order <-> is_head g nodes h) /\ topological (prerequisite g) order /\
        (* the mappings *)
        (forall h p, In h order -> (In p (ids_of parent_ids h) <-> In p order /\ prerequisite g p h)) /\
        (forall h c, In h order -> (In c (ids_of child_ids h) <-> In c order /\ prerequisite g h c)) /\
        (forall h, In h order <-> In h (map fst parent_ids)) /\ (forall h, In h order <-> In h (map fst child_ids)))
     \/ (* or: the chains depend on each other cyclically *)
     (head_nodes g nodes = HeadCycle /\
        exists h, path (fun x y => is_head g nodes x /\ is_head g nodes y /\ prerequisite g x y) h h)).
Proof.
  intros g nodes Hnd Hcl Hwf. split.
  { intros v Hv. destruct (has_head g Hwf nodes Hcl v Hv) as (h & Hh & Hc). exists h. split; [auto|].
    intros h' [Hh' Hc']. apply (head_unique g Hwf h h' v); [apply Hh|apply Hh'|exact Hc|exact Hc']. }
  unfold head_nodes. destruct (head_entries_spec g Hwf nodes) as (entries & -> & He).
  assert (Hpn : forall v u, In u (parents g v) -> In u nodes).
  { intros v u Hu. apply parents_in in Hu as (e & H & _ & <- & _). apply (Hcl e H). }
  assert (Hci : forall v u, In u (children g v) <-> depends_on g v u).
  { intros v u. unfold children, edges_from, depends_on. rewrite in_map_iff. split.
    - intros (e & <- & H). apply filter_In in H as [H Hd]. apply filter_In in H as [H Ht]. apply Nat.eqb_eq in Ht. eauto 6.
    - intros (e & H & Hd & <- & <-). exists e. split; [reflexivity|]. apply filter_In. split; [|exact Hd].
      apply filter_In. split; [exact H|]. apply Nat.eqb_refl. }
  assert (Hcn : forall v u, In u (children g v) -> In u nodes).
  { intros v u Hu. apply Hci in Hu as (e & H & _ & _ & <-). apply (Hcl e H). }
  destruct (connection_map_spec g Hwf nodes Hcl entries (parents g) He Hpn Hnd) as (ps & -> & Kp & Sp).
  destruct (connection_map_spec g Hwf nodes Hcl entries (children g) He Hcn Hnd) as (cs & -> & Kc & Sc).
  assert (Sp' : forall h p, is_head g nodes h -> (In p (ids_of ps h) <-> is_head g nodes p /\ prerequisite g p h)).
  { intros h p Hh. destruct (Sp h Hh) as (_ & _ & S). rewrite S. unfold prerequisite. split.
    - intros (Hne & Hp & u & v & Huv & Hv & Hu). apply parents_in in Huv. split; [exact Hp|]. split; [exact Hne|]. eauto 6.
    - intros (Hp & Hne & u & v & Huv & Hu & Hv). split; [exact Hne|]. split; [exact Hp|]. exists u, v. rewrite parents_in. auto. }
  assert (Sc' : forall h p, is_head g nodes h -> (In p (ids_of cs h) <-> is_head g nodes p /\ prerequisite g h p)).
  { intros h p Hh. destruct (Sc h Hh) as (_ & _ & S). rewrite S. unfold prerequisite. split.
    - intros (Hne & Hp & u & v & Huv & Hv & Hu). apply Hci in Huv. split; [exact Hp|]. split; [congruence|]. eauto 6.
    - intros (Hp & Hne & u & v & Huv & Hu & Hv). split; [congruence|]. split; [exact Hp|]. exists v, u. rewrite Hci. auto. }
  assert (Hkn : NoDup (map fst ps)) by (rewrite Kp; apply NoDup_filter; exact Hnd).
  assert (Hdep : forall x y, depends ps x y <-> is_head g nodes x /\ is_head g nodes y /\ prerequisite g x y).
  { intros x y. split.
    - intros (Hne & ds & Hy & Hx). assert (Hh : is_head g nodes y) by (apply heads_in; rewrite <- Kp; eapply deps_key; eauto).
      rewrite <- (ids_of_in ps y ds Hkn Hy) in Hx. apply (Sp' y x Hh) in Hx. tauto.
    - intros (Hx & Hy & Hp). split; [apply Hp|]. destruct (Sp y Hy) as (_ & Hin & _). exists (ids_of ps y). split; [exact Hin|].
      apply Sp'; auto. }
  destruct (toposort_correct ps Hkn) as [(ls & -> & _ & Hnc & Hi & Hl & _)|(-> & x & Hx)]; [left|right].
  - exists (concat (map sort_ids ls)), ps, cs. split; [reflexivity|].
    assert (HF : Forall2 (@Permutation nat) (map sort_ids ls) ls).
    { clear. induction ls; constructor; auto. apply sort_perm. }
    destruct (levels_topological (depends ps) ls (map sort_ids ls)) as [P T]; [|exact HF|].
    { intros pre L post y x EE Hy Hb. destruct (Hl pre L post x y EE Hy Hb) as (L' & G1 & G2). apply in_concat. eauto. }
    assert (Ho : forall h, In h (concat (map sort_ids ls)) <-> is_head g nodes h).
    { intros h. split.
      - intros H. apply (Permutation_in _ P) in H. apply Hi in H as [H|[y H]].
        + rewrite Kp in H. apply heads_in. exact H.
        + apply Hdep in H. apply H.
      - intros H. apply (Permutation_in _ (Permutation_sym P)). apply Hi. left. rewrite Kp. apply heads_in. exact H. }
    split; [eapply Permutation_NoDup; [apply Permutation_sym; exact P|exact Hnc]|]. split; [exact Ho|]. split.
    { intros x y Hxy Hx Hy. apply T; [|exact Hx|exact Hy]. apply Hdep. rewrite <- !Ho. auto. }
    split; [|split; [|split]].
    + intros h p Hh. apply Ho in Hh. rewrite Ho. apply Sp'. exact Hh.
    + intros h c Hh. apply Ho in Hh. rewrite Ho. apply Sc'. exact Hh.
    + intros h. rewrite Ho, Kp, heads_in. reflexivity.
    + intros h. rewrite Ho, Kc, heads_in. reflexivity.
  - split; [reflexivity|]. exists x. eapply path_incl; [|exact Hx]. intros a b H. apply Hdep. exact H.
Qed.
Print Assumptions head_nodes_correct.

(** Works 1, 2, 3 form a chain; 4 depends on the middle of it, 3 depends on 5. *)
Definition hx_graph : graph :=
  Gr [Ed 0 1 0 FS; Ed 1 2 0 IFS; Ed 2 3 0 IFS; Ed 2 4 0 FFS; Ed 5 3 0 FS; Ed 0 5 0 FS; Ed 4 6 0 FS; Ed 3 6 0 FS]
     (fun _ => WU false [] 1).
Example head_nodes_example :
  chains_wf hx_graph /\
  head_nodes hx_graph [6; 0; 1; 2; 3; 4; 5] =
    Heads [0; 5; 1; 4; 6] [(6, [4; 1]); (0, []); (1, [0; 5]); (4, [1]); (5, [0])]
          [(6, []); (0, [1; 5]); (1, [4; 6]); (4, [6]); (5, [1])].
Proof.
  split; [|vm_compute; reflexivity].
  assert (H : forall x y, inseparable hx_graph x y <-> (x = 1 /\ y = 2) \/ (x = 2 /\ y = 3)).
  { intros x y. split.
    - intros (e & He & Ht & <- & <-). simpl in He. repeat destruct He as [<-|He]; simpl in *; try discriminate; auto. destruct He.
    - intros [[-> ->]|[-> ->]]; eexists; simpl; [split; [right; left; reflexivity|auto]|split; [right; right; left; reflexivity|auto]]. }
  split; [|split].
  - intros x x' y H1 H2. apply H in H1, H2. lia.
  - intros x y y' H1 H2. apply H in H1, H2. lia.
  - intros x. assert (G : forall a b, path (inseparable hx_graph) a b -> a < b).
    { induction 1 as [a b Hab|a b c _ IH1 _ IH2]; [apply H in Hab; lia|lia]. }
    intros Hx. apply G in Hx. lia.
Qed.
(** A work that depends on the first and is needed by the last work of a chain makes the
    collapsed graph cyclic although the dependencies are not. *)
Example head_nodes_cycle_example :
  head_nodes (Gr [Ed 0 1 0 IFS; Ed 0 2 0 FS; Ed 2 1 0 FS] (fun _ => WU false [] 1)) [0; 1; 2] = HeadCycle.
Proof. reflexivity. Qed.
