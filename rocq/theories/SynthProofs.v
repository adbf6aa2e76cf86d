(** Proofs for C112: invariants of the generator of synthetic work graphs. *)
From Coq Require Import ZArith QArith Qround List Bool Lia Lqa Arith Permutation Relations ZifyBool ZifyNat.
From Verif Require Import TimeModel MomentumModel GraphModel ScheduleSpec TopoModel TraverseModel EnvModel SynthModel SynthSpec.
Import ListNotations.
Local Open Scope Z_scope.

(** ** Requirements *)
(** requirements that can be multiplied by [S] *)
Definition base_req (S : Z) (r : req) : Prop := 1 <= r_min r <= r_max r /\ 0 <= r_volume r /\ r_volume r * S <= 4500.

Lemma py_int_range q z : (0 <= q)%Q -> (q <= inject_Z z)%Q -> 0 <= py_int q <= z.
Proof.
  intros H1 H2. unfold py_int. destruct q as [n d]. unfold Qle, inject_Z in *. cbn in *.
  assert (0 <= n) by lia. rewrite Z.quot_div_nonneg by lia. split; [apply Z.div_pos; lia|apply Z.div_le_upper_bound; lia].
Qed.
Lemma set_time_id z : 0 <= z <= 4500 -> set_time z = z.
Proof. intros H. unfold set_time. unfold TIME_INF. repeat match goal with |- context [if ?b then _ else _] => destruct b eqn:? end; lia. Qed.
Lemma scaled_volume r S s : base_req S r -> 0 <= S -> (0 <= s)%Q -> (s <= inject_Z S)%Q -> 0 <= set_time (py_int (inject_Z (r_volume r) * s)) <= 4500.
Proof.
  intros (_ & H1 & H2) HS Hs1 Hs2. assert (R : 0 <= py_int (inject_Z (r_volume r) * s) <= r_volume r * S).
  { assert (Hv : (0 <= inject_Z (r_volume r))%Q) by (change 0%Q with (inject_Z 0); rewrite <- Zle_Qle; exact H1).
    apply py_int_range; [apply Qmult_le_0_compat; assumption|].
    rewrite inject_Z_mult. rewrite !(Qmult_comm (inject_Z (r_volume r))). apply Qmult_le_compat_r; assumption. }
  rewrite set_time_id by lia. lia.
Qed.
Lemma good_scale_all r S s : base_req S r -> 0 <= S -> (0 <= s)%Q -> (s <= inject_Z S)%Q -> good_req (scale_all s r).
Proof. intros H HS H1 H2. split; [cbn; destruct H; lia|]. apply (scaled_volume r S s); assumption. Qed.
Lemma good_scale_volume r S s : base_req S r -> 0 <= S -> (0 <= s)%Q -> (s <= inject_Z S)%Q -> good_req (scale_volume s r).
Proof. intros H HS H1 H2. split; [cbn; destruct H; lia|]. apply (scaled_volume r S s); assumption. Qed.
Lemma good_scale_reqs l S s : l <> [] -> NoDup (map r_kind l) -> Forall (base_req S) l -> 0 <= S -> (0 <= s)%Q -> (s <= inject_Z S)%Q -> good_reqs (scale_reqs l s).
Proof.
  intros Hn Hd F HS H1 H2. unfold scale_reqs. split; [destruct l; [congruence|discriminate]|]. split; [rewrite map_map; exact Hd|].
  rewrite Forall_map. eapply Forall_impl; [|exact F]. intros r Hr. apply (good_scale_all r S s); assumption.
Qed.
Lemma good_mul_reqs l S s : l <> [] -> NoDup (map r_kind l) -> Forall (base_req S) l -> 0 <= S -> (0 <= s)%Q -> (s <= inject_Z S)%Q -> good_reqs (mul_volume_reqs l s).
Proof.
  intros Hn Hd F HS H1 H2. unfold mul_volume_reqs. split; [destruct l; [congruence|discriminate]|]. split; [rewrite map_map; exact Hd|].
  rewrite Forall_map. eapply Forall_impl; [|exact F]. intros r Hr. apply (good_scale_volume r S s); assumption.
Qed.
Ltac lists := first [discriminate | vm_compute; repeat (constructor; [cbn; let H := fresh in intros H; repeat (destruct H as [H|H]; [discriminate H|]); exact H|]); constructor].
Definition good_reqb (r : req) : bool := (1 <=? r_min r) && (r_min r <=? r_max r) && (0 <=? r_volume r) && (r_volume r <=? 4500).
Definition base_reqb (S : Z) (r : req) : bool := (1 <=? r_min r) && (r_min r <=? r_max r) && (0 <=? r_volume r) && (r_volume r * S <=? 4500).
Lemma good_by_check l : forallb good_reqb l = true -> Forall good_req l.
Proof. rewrite Forall_forall, forallb_forall. intros H r Hr. specialize (H r Hr). unfold good_reqb, good_req in *. lia. Qed.
Lemma base_by_check S l : forallb (base_reqb S) l = true -> Forall (base_req S) l.
Proof. rewrite Forall_forall, forallb_forall. intros H r Hr. specialize (H r Hr). unfold base_reqb, base_req in *. lia. Qed.
Ltac bases := first [apply good_by_check; vm_compute; reflexivity|apply base_by_check; vm_compute; reflexivity].

(** ** Random numbers *)
Lemma float_range lo hi x : (lo <= hi)%Q -> (0 <= x)%Q /\ (x < 1)%Q -> (lo <= lo + (hi - lo) * x)%Q /\ (lo + (hi - lo) * x <= hi)%Q.
Proof.
  intros H [H1 H2]. assert (D : (0 <= hi - lo)%Q) by lra. assert (P : (0 <= (hi - lo) * x)%Q) by (apply Qmult_le_0_compat; assumption).
  assert (P2 : ((hi - lo) * x <= (hi - lo) * 1)%Q). { rewrite !(Qmult_comm (hi - lo)). apply Qmult_le_compat_r; lra. }
  split; lra.
Qed.
Lemma py_round_le (z : Z) q : (q <= inject_Z z)%Q -> py_round q <= z.
Proof.
  intros H. assert (F := Qfloor_le q). assert (F2 := Qlt_floor q). set (f := Qfloor q) in *.
  assert (Hf : f <= z). { rewrite Zle_Qle. eapply Qle_trans; eassumption. }
  unfold py_round. fold f. destruct (Z.eq_dec f z) as [E|E].
  - assert (C : ((q - inject_Z f) ?= 1 # 2)%Q = Lt); [|rewrite C; lia]. rewrite <- Qlt_alt. rewrite E in *. lra.
  - destruct (_ ?= _)%Q; try lia. destruct (Z.even f); lia.
Qed.
Lemma count_range (lo hi : Z) x : 0 <= lo <= hi -> hi <= 1000 -> (inject_Z lo <= x)%Q -> (x <= inject_Z hi)%Q ->
  (Z.to_nat lo <= Z.to_nat (rand_int x (inject_Z lo) (inject_Z hi)) <= Z.to_nat hi)%nat.
Proof.
  intros H Hb H1 H2. assert (A := py_round_le hi x H2). unfold rand_int.
  assert (B : lo <= py_round x).
  { unfold py_round. assert (F : lo <= Qfloor x) by (rewrite <- (Qfloor_Z lo); apply Qfloor_resp_le; exact H1).
    destruct (_ ?= _)%Q; try lia. destruct (Z.even _); lia. }
  assert (C1 : py_int (inject_Z lo - EPS) <= 0). { unfold py_int, EPS, Qminus, Qopp, Qplus, inject_Z. cbn [Qnum Qden]. change (Z.pos (1 * 1)) with 1. rewrite Z.quot_1_r. lia. }
  assert (C2 : hi <= py_int (inject_Z hi + EPS)). { unfold py_int, EPS, Qplus, inject_Z. cbn [Qnum Qden]. change (Z.pos (1 * 1)) with 1. rewrite Z.quot_1_r. lia. }
  lia.
Qed.

(** ** The invariant *)
Definition handings (s : gstate) : list nat := handing_stages (gs_works s).
Definition size (s : gstate) : nat := length (gs_works s).
(** Links lead from earlier to later works; only the works [tops] have no predecessors and only
    the works [open] no successors. *)
Record ok (s : gstate) (tops open h : list nat) : Prop := {
  ok_edges : forall e, In e (gs_edges s) -> (e_from e < e_to e)%nat /\ (e_to e < size s)%nat /\ (e_type e = FS \/ e_type e = FFS) /\ e_lag e = 0;
  ok_tops : forall n, (n < size s)%nat -> (exists e, In e (gs_edges s) /\ e_to e = n) \/ In n tops;
  ok_open : forall n, (n < size s)%nat -> (exists e, In e (gs_edges s) /\ e_from e = n) \/ In n open;
  ok_works : Forall good_work (gs_works s);
  ok_handings : handings s = h }.
Definition known (s : gstate) (l : list nat) : Prop := forall n, In n l -> (n < size s)%nat.
Lemma ok_incl s tops open tops' open' h : ok s tops open h -> incl tops tops' -> incl open open' -> ok s tops' open' h.
Proof.
  intros [H1 H2 H3 H4 H5] I1 I2. constructor; auto; intros n Hn; [destruct (H2 n Hn)|destruct (H3 n Hn)]; auto.
Qed.
Lemma known_mono s s' l : known s l -> (size s <= size s')%nat -> known s' l.
Proof. intros H L n Hn. specialize (H n Hn). lia. Qed.
Lemma node_ok type name reqs vol parents s tops open open' h :
  ok s tops open h -> (type = FS \/ type = FFS) -> good_work (GW name reqs vol) -> known s parents -> incl open (parents ++ open') ->
  let r := node_with type name reqs vol parents s in
  fst r = size s /\ size (snd r) = S (size s) /\
  ok (snd r) (if match parents with [] => true | _ => false end then size s :: tops else tops) (size s :: open')
     (h ++ if match name with Handing => true | _ => false end then [size s] else []).
Proof.
  intros [H1 H2 H3 H4 H5] Ht Hg Hk Hi. cbn. unfold known, size in *. cbn. rewrite app_length. cbn. split; [reflexivity|]. split; [lia|].
  constructor; cbn; unfold size in *; cbn.
  - intros e He. rewrite app_length. cbn. apply in_app_or in He as [He|He]; [destruct (H1 e He) as (A & B & C); repeat split; try lia; apply C|].
    apply in_map_iff in He as (p & <- & Hp). cbn. specialize (Hk p Hp). repeat split; try lia. exact Ht.
  - intros n. rewrite app_length. cbn. intros Hn. destruct (Nat.eq_dec n (length (gs_works s))) as [->|Hne].
    + destruct parents as [|p ps]; [right; left; reflexivity|left]. eexists. split; [apply in_or_app; right; left; reflexivity|reflexivity].
    + destruct (H2 n ltac:(lia)) as [(e & He & E)|Hn']; [left; exists e; rewrite in_app_iff; auto|right; destruct parents; cbn; auto].
  - intros n. rewrite app_length. cbn. intros Hn. destruct (Nat.eq_dec n (length (gs_works s))) as [->|Hne]; [right; left; reflexivity|].
    destruct (H3 n ltac:(lia)) as [(e & He & E)|Hn']; [left; exists e; rewrite in_app_iff; auto|].
    apply Hi in Hn'. apply in_app_or in Hn' as [Hn'|Hn']; [left|right; right; exact Hn'].
    exists (Ed n (length (gs_works s)) 0 type). split; [|reflexivity]. apply in_or_app. right. apply in_map_iff. eauto.
  - apply Forall_app. split; [exact H4|]. constructor; [exact Hg|constructor].
  - unfold handings, handing_stages in *. cbn. rewrite app_length. cbn. rewrite seq_app, filter_app, <- H5. cbn. rewrite nth_error_app2, Nat.sub_diag by lia. cbn. unfold is_handing at 2. cbn. f_equal.
    apply filter_ext_in. intros n Hn. apply in_seq in Hn. rewrite nth_error_app1 by lia. reflexivity.
Qed.
Lemma draw_ok s tops open h k : ok s tops open h -> ok (GS (gs_works s) (gs_edges s) k) tops open h.
Proof. intros [H1 H2 H3 H4 H5]. constructor; assumption. Qed.
Lemma add_parent_ok n p s tops open h : ok s tops open h -> (p < n)%nat -> (n < size s)%nat ->
  size (snd (add_parent n p s)) = size s /\ ok (snd (add_parent n p s)) tops open h.
Proof.
  intros [H1 H2 H3 H4 H5] L1 L2. split; [reflexivity|]. cbn. constructor; cbn; unfold size in *; cbn; auto.
  - intros e He. apply in_app_or in He as [He|[<-|[]]]; [apply H1, He|cbn; auto].
  - intros m Hm. destruct (H2 m Hm) as [(e & He & E)|Hn']; [left; exists e; rewrite in_app_iff; auto|auto].
  - intros m Hm. destruct (H3 m Hm) as [(e & He & E)|Hn']; [left; exists e; rewrite in_app_iff; auto|auto].
Qed.

(** ** The parts of a cluster *)
Definition made (s : gstate) (r : list nat * gstate) (k : nat) (tops open h : list nat) : Prop :=
  size (snd r) = (size s + k)%nat /\ length (fst r) = k /\ (forall n, In n (fst r) -> (size s <= n < size (snd r))%nat) /\ ok (snd r) tops (fst r ++ open) h.
Definition handing_name (name : work_name) : bool := match name with Handing => true | _ => false end.
(** One work with predecessors. *)
Lemma node_made type name reqs vol parents s tops open open' h :
  ok s tops open h -> (type = FS \/ type = FFS) -> good_reqs reqs -> (0 <= vol)%Q -> handing_name name = false -> parents <> [] -> known s parents -> incl open (parents ++ open') ->
  let r := node_with type name reqs vol parents s in
  fst r = size s /\ size (snd r) = S (size s) /\ ok (snd r) tops (size s :: open') h.
Proof.
  intros H Ht Hg Hv Hh Hp Hk Hi. destruct (node_ok type name reqs vol parents s tops open open' h H Ht (conj Hg Hv) Hk Hi) as (A & B & C).
  split; [exact A|]. split; [exact B|]. destruct parents; [congruence|]. cbn -[node_with] in *. destruct name; try discriminate Hh; rewrite app_nil_r in C; exact C.
Qed.
Lemma nodes_made name reqs vol parents k s tops open h :
  ok s tops open h -> good_reqs reqs -> (0 <= vol)%Q -> handing_name name = false -> parents <> [] -> known s parents ->
  made s (repeat_m k (node name reqs vol parents) s) k tops open h.
Proof.
  intros H Hg Hv Hh Hp. revert s open H. induction k as [|k IH]; intros s open H Hk.
  - cbn. split; [cbn; lia|]. split; [reflexivity|]. split; [intros n []|exact H].
  - cbn [repeat_m]. unfold bind at 1. destruct (node_made FS name reqs vol parents s tops open open h H (or_introl eq_refl) Hg Hv Hh Hp Hk) as (A & B & C); [intros x Hx; apply in_or_app; auto|].
    unfold node. destruct (node_with FS name reqs vol parents s) as [a s1]. cbn [fst snd] in *. subst a.
    specialize (IH s1 (size s :: open) C ltac:(eapply known_mono; [exact Hk|lia])).
    destruct IH as (I1 & I2 & I3 & I4). unfold bind, ret. fold node. unfold node in *. destruct (repeat_m k (node_with FS name reqs vol parents) s1) as [l s2]. cbn [fst snd] in *.
    unfold made; cbn [fst snd]. split; [lia|]. split; [cbn; lia|]. split; [intros n [<-|Hn]; [lia|specialize (I3 n Hn); lia]|].
    eapply ok_incl; [exact I4|apply incl_refl|]. intros x Hx. apply in_app_or in Hx as [Hx|[Hx|Hx]]; cbn; rewrite in_app_iff; auto.
Qed.

Ltac incls := let x := fresh "x" in let Hx := fresh "Hx" in intros x Hx; cbn [fst snd app] in *; repeat (rewrite ?in_app_iff in *; cbn [In] in * ); tauto.
Ltac knows := first [assumption | eapply known_mono; [eassumption|lia]].
Ltac on t := pattern t; lazymatch goal with |- ?Q _ => set (post := Q) end.
(** Make the next node; [o] is what stays open. *)
Ltac nd H o := unfold bind at 1; unfold node;
  lazymatch type of H with ok ?s ?tops ?open ?h =>
  lazymatch goal with |- context [node_with ?t ?n ?r ?v ?p s] =>
    let A := fresh "A" in let B := fresh "B" in let C := fresh "C" in let a := fresh "a" in let s1 := fresh "s1" in
    destruct (node_made t n r v p s tops open o h H ltac:(first [left; reflexivity|right; reflexivity]) ltac:(eauto with good) ltac:(eauto with good) eq_refl
      ltac:(first [discriminate|assumption]) ltac:(knows) ltac:(incls)) as (A & B & C);
    destruct (node_with t n r v p s) as [a s1]; cbn [fst snd] in A, B, C; rewrite <- A in C; clear H; rename C into H
  end end.
Lemma good_pipe_node : good_reqs PIPE_NODE. Proof. split; [discriminate|]. split; [lists|bases]. Qed.
Lemma good_metering : good_reqs METERING_INSTALL. Proof. split; [discriminate|]. split; [lists|bases]. Qed.
Lemma good_water : good_reqs WATER_BLOCK. Proof. split; [discriminate|]. split; [lists|bases]. Qed.
Lemma good_automation : good_reqs AUTOMATION_BLOCK. Proof. split; [discriminate|]. split; [lists|bases]. Qed.
Lemma good_dosage : good_reqs BLOCK_DOSAGE. Proof. split; [discriminate|]. split; [lists|bases]. Qed.
Lemma good_filter : good_reqs START_FILTER. Proof. split; [discriminate|]. split; [lists|bases]. Qed.
Lemma good_firewall : good_reqs FIREWALL. Proof. split; [discriminate|]. split; [lists|bases]. Qed.
Lemma good_borehole : good_reqs BOREHOLE. Proof. split; [discriminate|]. split; [lists|bases]. Qed.
Lemma good_mast : good_reqs LIGHT_MAST. Proof. split; [discriminate|]. split; [lists|bases]. Qed.
Lemma zero_le : (0 <= 0)%Q. Proof. discriminate. Qed.
#[export] Hint Resolve good_pipe_node good_metering good_water good_automation good_dosage good_filter good_firewall good_borehole good_mast zero_le : good.
Lemma good_road l d : In l [MIN_ROAD; TEMP_ROAD; FINAL_ROAD] -> (5 <= d)%Q -> (d <= 15)%Q -> good_reqs (scale_reqs l d).
Proof.
  intros Hl H1 H2. apply (good_scale_reqs l 15); try lia; try (eapply Qle_trans; [|exact H1]; discriminate); try exact H2; cbn in Hl;
    destruct Hl as [<-|[<-|[<-|[]]]]; solve [discriminate|lists|bases].
Qed.
Lemma good_line d : (0 <= d)%Q -> (d <= 15)%Q -> good_reqs (scale_reqs POWER_LINE d).
Proof. intros H1 H2. apply (good_scale_reqs POWER_LINE 15); try lia; auto; solve [discriminate|lists|bases]. Qed.
Lemma good_pipe_line d : (0 <= d)%Q -> (d <= 15)%Q -> good_reqs (scale_reqs PIPE_LINE d).
Proof. intros H1 H2. apply (good_scale_reqs PIPE_LINE 15); try lia; auto; solve [discriminate|lists|bases]. Qed.
Lemma good_net d : (0 <= d)%Q -> (d <= 15)%Q -> good_reqs (scale_reqs POWER_NETWORK d).
Proof. intros H1 H2. apply (good_scale_reqs POWER_NETWORK 15); try lia; auto; solve [discriminate|lists|bases]. Qed.
#[export] Hint Resolve good_line good_pipe_line good_net : good.
Lemma borehole_volume_range b base : (b <= 28)%nat -> In base [ENGINEERING_PREPARATION_BASE; KTP_NEP_BASE; DRAINAGE_TANK_BASE; HANDING_STAGE_BASE] ->
  (0 <= get_borehole_volume b base)%Q /\ (get_borehole_volume b base <= 2)%Q.
Proof.
  intros Hb Hl. unfold get_borehole_volume. assert (Z1 : (0 <= inject_Z (Z.of_nat b))%Q) by (change 0%Q with (inject_Z 0); rewrite <- Zle_Qle; lia).
  assert (Z2 : (inject_Z (Z.of_nat b) <= 28)%Q) by (change 28%Q with (inject_Z 28); rewrite <- Zle_Qle; lia). set (x := inject_Z (Z.of_nat b)) in *. clearbody x.
  cbn in Hl. destruct Hl as [<-|[<-|[<-|[<-|[]]]]]; cbn; split; lra.
Qed.
Lemma good_eng b : (b <= 28)%nat -> good_reqs (mul_borehole_volume ENGINEERING_PREPARATION b ENGINEERING_PREPARATION_BASE).
Proof. intros H. destruct (borehole_volume_range b ENGINEERING_PREPARATION_BASE H ltac:(cbn; auto)). apply (good_mul_reqs ENGINEERING_PREPARATION 2); try lia; auto; solve [discriminate|lists|bases]. Qed.
Lemma good_ktp b : (b <= 28)%nat -> good_reqs (mul_borehole_volume KTP_NEP b KTP_NEP_BASE).
Proof. intros H. destruct (borehole_volume_range b KTP_NEP_BASE H ltac:(cbn; auto)). apply (good_mul_reqs KTP_NEP 2); try lia; auto; solve [discriminate|lists|bases]. Qed.
Lemma good_drainage b : (b <= 28)%nat -> good_reqs (mul_borehole_volume DRAINAGE_TANK b DRAINAGE_TANK_BASE).
Proof. intros H. destruct (borehole_volume_range b DRAINAGE_TANK_BASE H ltac:(cbn; auto)). apply (good_mul_reqs DRAINAGE_TANK 2); try lia; auto; solve [discriminate|lists|bases]. Qed.
Lemma good_handing b : (b <= 28)%nat -> good_reqs (mul_borehole_volume HANDING_STAGE b HANDING_STAGE_BASE).
Proof. intros H. destruct (borehole_volume_range b HANDING_STAGE_BASE H ltac:(cbn; auto)). apply (good_mul_reqs HANDING_STAGE 2); try lia; auto; solve [discriminate|lists|bases]. Qed.
Lemma vol_eng b : (b <= 28)%nat -> (0 <= get_borehole_volume b ENGINEERING_PREPARATION_BASE)%Q.
Proof. intros H. apply borehole_volume_range; cbn; auto. Qed.
Lemma vol_ktp b : (b <= 28)%nat -> (0 <= get_borehole_volume b KTP_NEP_BASE)%Q.
Proof. intros H. apply borehole_volume_range; cbn; auto. Qed.
Lemma vol_drainage b : (b <= 28)%nat -> (0 <= get_borehole_volume b DRAINAGE_TANK_BASE)%Q.
Proof. intros H. apply borehole_volume_range; cbn; auto. Qed.
Lemma vol_handing b : (b <= 28)%nat -> (0 <= get_borehole_volume b HANDING_STAGE_BASE)%Q.
Proof. intros H. apply borehole_volume_range; cbn; auto. Qed.
#[export] Hint Resolve good_eng good_ktp good_drainage good_handing vol_eng vol_ktp vol_drainage vol_handing : good.

Ltac made_end H := unfold bind, ret; split; [cbn [snd]; lia|]; split; [reflexivity|]; split;
  [cbn [fst snd]; let n := fresh in let Hn := fresh in intros n Hn; cbn [In] in Hn; repeat destruct Hn as [Hn|Hn]; try contradiction; subst; lia
  |cbn [fst snd]; eapply ok_incl; [exact H|apply incl_refl|subst; incls]].

Lemma power_lines_made P line high s tops X open h :
  ok s tops (X ++ open) h -> incl X P -> P <> [] -> known s P -> (0 <= line)%Q -> (line <= 15)%Q -> (forall d, high = Some d -> (0 <= d)%Q /\ (d <= 15)%Q) ->
  made s (get_power_lines P line high s) (match high with None => 2 | Some _ => 3 end) tops open h.
Proof.
  intros H HX Hp Hk L1 L2 Hh. assert (HX' : forall x, In x X -> In x P) by exact HX. unfold get_power_lines.
  assert (H0 : ok s tops (P ++ open) h). { eapply ok_incl; [exact H|apply incl_refl|]. intros x Hx. apply in_app_or in Hx as [Hx|Hx]; apply in_or_app; auto. }
  clear H. nd H0 open. nd H0 (a :: open). destruct high as [d|].
  - destruct (Hh d eq_refl). nd H0 (a0 :: a :: open). made_end H0.
  - made_end H0.
Qed.

Lemma roads_made d s tops open h : ok s tops open h -> (5 <= d)%Q -> (d <= 15)%Q ->
  let r := get_roads d s in
  size (snd r) = (size s + 3)%nat /\ rd_min (fst r) = size s /\ rd_temp (fst r) = S (size s) /\ rd_final (fst r) = S (S (size s)) /\
  ok (snd r) (rd_min (fst r) :: tops) (rd_final (fst r) :: open) h.
Proof.
  intros H L1 L2. assert (D0 : (0 <= d)%Q) by lra. cbn zeta. on (get_roads d s). unfold get_roads, bind at 1, node.
  assert (G1 := good_road MIN_ROAD d ltac:(cbn; auto) L1 L2). assert (G2 := good_road TEMP_ROAD d ltac:(cbn; auto) L1 L2). assert (G3 := good_road FINAL_ROAD d ltac:(cbn; auto) L1 L2).
  destruct (node_ok FS MinRoad (scale_reqs MIN_ROAD d) d [] s tops open open h H (or_introl eq_refl) (conj G1 D0) ltac:(intros n []) ltac:(incls)) as (A & B & C).
  destruct (node_with FS MinRoad (scale_reqs MIN_ROAD d) d [] s) as [a s1]. cbn [fst snd] in *. rewrite <- A in C. cbn [app] in C. rewrite app_nil_r in C. clear H.
  assert (K1 : known s1 [a]) by (intros n [<-|[]]; lia). nd C open. assert (K2 : known s0 [a0]) by (intros n [<-|[]]; lia). nd C open.
  unfold ret. subst post. cbn [fst snd rd_min rd_temp rd_final]. repeat (split; [lia|]). exact C.
Qed.
Lemma segments_made P dists s tops open h : ok s tops open h -> P <> [] -> known s P -> Forall (fun d => (0 <= d)%Q /\ (d <= 15)%Q) dists ->
  made s (get_segments P dists s) (2 * length dists) tops open h.
Proof.
  intros H Hp Hk F. revert s open H Hk. induction F as [|d r [D1 D2] F IH]; intros s open H Hk.
  - cbn. split; [cbn; lia|]. split; [reflexivity|]. split; [intros n []|exact H].
  - cbn [get_segments]. nd H open. nd H (a :: open). specialize (IH s0 _ H ltac:(knows)). destruct IH as (I1 & I2 & I3 & I4).
    unfold bind, ret. destruct (get_segments P r s0) as [l s3]. unfold made. cbn [fst snd length] in *.
    split; [lia|]. split; [lia|]. split; [intros n [<-|[<-|Hn]]; [lia|lia|specialize (I3 n Hn); lia]|].
    eapply ok_incl; [exact I4|apply incl_refl|incls].
Qed.
Lemma pipe_lines_made P first rest s tops open h : ok s tops open h -> P <> [] -> known s P -> (0 <= first)%Q -> (first <= 15)%Q -> Forall (fun d => (0 <= d)%Q /\ (d <= 15)%Q) rest ->
  made s (get_pipe_lines P first rest s) (2 * length rest + 2) tops open h.
Proof.
  intros H Hp Hk F1 F2 F. unfold get_pipe_lines. nd H open. unfold bind at 1.
  destruct (segments_made P rest s1 tops (a :: open) h H Hp ltac:(knows) F) as (I1 & I2 & I3 & I4). destruct (get_segments P rest s1) as [l s2]. cbn [fst snd] in *.
  assert (K : known s2 [a]) by (intros n [<-|[]]; lia). nd I4 (l ++ a :: open). unfold ret, made. cbn [fst snd length]. rewrite app_length. cbn [length].
  split; [lia|]. split; [lia|]. split; [|eapply ok_incl; [exact I4|apply incl_refl|incls]].
  intros n [<-|Hn]; [lia|]. apply in_app_or in Hn as [Hn|[<-|[]]]; [specialize (I3 n Hn)|]; lia.
Qed.
Lemma group_made P b s tops open h : ok s tops open h -> P <> [] -> known s P -> (b <= 28)%nat ->
  made s (get_equipment_group P b s) 3 tops open h.
Proof. intros H Hp Hk Hb. unfold get_equipment_group. nd H open. nd H (a :: open). nd H (a0 :: a :: open). made_end H. Qed.
Lemma shared_made P s tops open h : ok s tops open h -> P <> [] -> known s P -> made s (get_equipment_shared P s) 5 tops open h.
Proof.
  intros H Hp Hk. unfold get_equipment_shared. nd H open. nd H (a :: open). nd H (a0 :: a :: open). nd H (a1 :: a0 :: a :: open). nd H (a2 :: a1 :: a0 :: a :: open). made_end H.
Qed.
(** The boreholes close their predecessors if there is one at all. *)
Lemma boreholes_made P b X s tops open h : ok s tops (X ++ open) h -> incl X P -> P <> [] -> known s P -> (1 <= b)%nat ->
  made s (get_boreholes P b s) b tops open h.
Proof.
  intros H HX Hp Hk Hb. destruct b as [|b]; [lia|]. unfold get_boreholes. cbn [repeat_m].
  assert (H0 : ok s tops (P ++ open) h). { eapply ok_incl; [exact H|apply incl_refl|]. intros x Hx. apply in_app_or in Hx as [Hx|Hx]; apply in_or_app; auto. }
  clear H. nd H0 open. destruct (nodes_made Borehole BOREHOLE 0 P b s1 tops (a :: open) h H0 ltac:(auto with good) ltac:(auto with good) eq_refl Hp ltac:(knows)) as (I1 & I2 & I3 & I4).
  unfold node in *. unfold bind, ret. destruct (repeat_m b _ s1) as [l s2]. unfold made. cbn [fst snd length] in *. split; [lia|]. split; [lia|].
  split; [intros n [<-|Hn]; [lia|specialize (I3 n Hn); lia]|]. eapply ok_incl; [exact I4|apply incl_refl|incls].
Qed.
Lemma groups_made P shared groups X s tops open h :
  ok s tops (X ++ open) h -> incl X shared -> P <> [] -> known s P -> known s shared -> Forall (fun b => (1 <= b <= 28)%nat) groups -> (groups = [] -> X = []) ->
  let r := get_groups P shared groups s in
  size (snd r) = (size s + snd (fst r))%nat /\ snd (fst r) = (3 * length groups + list_sum groups)%nat /\
  (forall n, In n (fst (fst r)) -> (size s <= n < size (snd r))%nat) /\ ok (snd r) tops (fst (fst r) ++ open) h.
Proof.
  intros H HX Hp Hk Hs F. revert X s open H HX Hk Hs. induction F as [|b r Hb F IH]; intros X s open H HX Hk Hs Hg.
  - rewrite (Hg eq_refl) in H. cbn. split; [lia|]. split; [lia|]. split; [intros n []|exact H].
  - cbn zeta. on (get_groups P shared (b :: r) s). cbn [get_groups]. unfold bind at 1. destruct (group_made P b s tops (X ++ open) h H Hp Hk ltac:(lia)) as (I1 & I2 & I3 & I4).
    destruct (get_equipment_group P b s) as [eq s1]. cbn [fst snd] in *. unfold bind at 1.
    assert (J : made s1 (get_boreholes (eq ++ shared) b s1) b tops open h).
    { apply (boreholes_made (eq ++ shared) b (eq ++ X)).
      - rewrite <- app_assoc. exact I4.
      - intros x Hx. apply in_app_or in Hx as [Hx|Hx]; apply in_or_app; auto.
      - destruct eq; discriminate.
      - intros n Hn. apply in_app_or in Hn as [Hn|Hn]; [apply I3 in Hn; lia|]. specialize (Hs n Hn). lia.
      - lia. }
    destruct J as (J1 & J2 & J3 & J4). destruct (get_boreholes (eq ++ shared) b s1) as [holes s2]. cbn [fst snd] in *. unfold bind at 1.
    specialize (IH [] s2 (holes ++ open) J4 ltac:(intros x []) ltac:(knows) ltac:(knows) ltac:(reflexivity)). cbn zeta in IH. destruct IH as (K1 & K2 & K3 & K4).
    destruct (get_groups P shared r s2) as [l s3]. cbn [fst snd] in *. unfold ret. subst post. cbn [fst snd]. unfold list_sum in *. cbn [fold_right length].
    split; [lia|]. split; [lia|]. split; [intros n Hn; apply in_app_or in Hn as [Hn|Hn]; [specialize (J3 n Hn)|specialize (K3 n Hn)]; lia|].
    eapply ok_incl; [exact K4|apply incl_refl|incls].
Qed.

Section WithDraws.
  Variable u : nat -> Q.
  Hypothesis U : unit_draws u.
  Lemma float_draw lo hi s tops open h : ok s tops open h -> (lo <= hi)%Q ->
    let r := rand_float u lo hi s in (lo <= fst r)%Q /\ (fst r <= hi)%Q /\ size (snd r) = size s /\ ok (snd r) tops open h.
  Proof.
    intros H L. cbn. destruct (float_range lo hi (u (gs_draw s)) L (U _)). repeat (split; [assumption || reflexivity|]). apply draw_ok, H.
  Qed.
  Lemma count_draw (lo hi : Z) s tops open h : ok s tops open h -> 0 <= lo <= hi -> hi <= 1000 ->
    let r := rand_count u (inject_Z lo) (inject_Z hi) s in (Z.to_nat lo <= fst r <= Z.to_nat hi)%nat /\ size (snd r) = size s /\ ok (snd r) tops open h.
  Proof.
    intros H L L2. cbn -[Z.to_nat]. assert (L' : (inject_Z lo <= inject_Z hi)%Q) by (rewrite <- Zle_Qle; lia). destruct (float_range (inject_Z lo) (inject_Z hi) (u (gs_draw s)) L' (U _)).
    split; [apply count_range; assumption|]. split; [reflexivity|]. apply draw_ok, H.
  Qed.
  Lemma floats_drawn lo hi k s tops open h : ok s tops open h -> (lo <= hi)%Q ->
    let r := repeat_m k (rand_float u lo hi) s in length (fst r) = k /\ Forall (fun d => (lo <= d)%Q /\ (d <= hi)%Q) (fst r) /\ size (snd r) = size s /\ ok (snd r) tops open h.
  Proof.
    intros H L. revert s H. induction k as [|k IH]; intros s H; [cbn; auto|]. cbn zeta. on (repeat_m (S k) (rand_float u lo hi) s). cbn [repeat_m]. unfold bind at 1.
    destruct (float_draw lo hi s tops open h H L) as (A & B & C & D). destruct (rand_float u lo hi s) as [x s1]. cbn [fst snd] in *. unfold bind at 1.
    destruct (IH s1 D) as (I1 & I2 & I3 & I4). destruct (repeat_m k (rand_float u lo hi) s1) as [l s2]. cbn [fst snd] in *. unfold ret. subst post. cbn [fst snd length].
    split; [lia|]. split; [constructor; auto|]. split; [lia|exact I4].
  Qed.
  Lemma pipe_net_made P pipes sum s tops open h : ok s tops open h -> P <> [] -> known s P -> (0 <= sum)%Q ->
    let r := get_pipe_net u P pipes sum s in made s (fst (fst r), snd r) pipes tops open h /\ (0 <= snd (fst r))%Q /\ (snd (fst r) <= sum + inject_Z (Z.of_nat pipes) * (3 # 10))%Q.
  Proof.
    intros H Hp. revert sum s open H. induction pipes as [|k IH]; intros sum s open H Hk Hs.
    - cbn zeta. cbn [get_pipe_net]. unfold ret. cbn [fst snd]. split; [split; [cbn; lia|]; split; [reflexivity|]; split; [intros n []|exact H]|]. split; [exact Hs|]. change (inject_Z (Z.of_nat 0)) with 0%Q. lra.
    - cbn zeta. on (get_pipe_net u P (S k) sum s). cbn [get_pipe_net]. unfold bind at 1. destruct (float_draw (5 # 100) (3 # 10) s tops open h H ltac:(discriminate)) as (A & B & C & D).
      destruct (rand_float u (5 # 100) (3 # 10) s) as [d s1]. cbn [fst snd] in *. assert (D1 : (0 <= d)%Q) by lra. assert (D2 : (d <= 15)%Q) by lra. assert (Kn : known s1 P) by knows.
      nd D open. destruct (IH (sum + d)%Q s0 _ D ltac:(knows) ltac:(lra)) as ((I1 & I2 & I3 & I4) & I5 & I6).
      unfold bind at 1. destruct (get_pipe_net u P k (sum + d) s0) as [l s2]. cbn [fst snd] in *. unfold ret. subst post. unfold made. cbn [fst snd length].
      split; [|split; [exact I5|rewrite Nat2Z.inj_succ; unfold Z.succ; rewrite inject_Z_plus; change (inject_Z 1) with 1%Q; lra]].
      split; [lia|]. split; [lia|]. split; [intros n [<-|Hn]; [lia|specialize (I3 n Hn); lia]|]. eapply ok_incl; [exact I4|apply incl_refl|incls].
  Qed.
  Lemma general_made P pipes masts s tops open h : ok s tops open h -> P <> [] -> known s P -> (pipes <= 50)%nat ->
    made s (get_equipment_general u P pipes masts s) (pipes + 1 + masts) tops open h.
  Proof.
    intros H Hp Hk Hn. unfold get_equipment_general. unfold bind at 1. destruct (pipe_net_made P pipes 0 s tops open h H Hp Hk ltac:(discriminate)) as ((I1 & I2 & I3 & I4) & I5 & I6).
    destruct (get_pipe_net u P pipes 0 s) as [[l sum] s1]. cbn [fst snd] in *.
    assert (L15 : (sum <= 15)%Q). { eapply Qle_trans; [exact I6|]. assert (Z2 : (inject_Z (Z.of_nat pipes) <= 50)%Q) by (change 50%Q with (inject_Z 50); rewrite <- Zle_Qle; lia). lra. }
    nd I4 (l ++ open). destruct (nodes_made Mast LIGHT_MAST 0 P masts s0 tops _ h I4 ltac:(auto with good) ltac:(auto with good) eq_refl Hp ltac:(knows)) as (J1 & J2 & J3 & J4).
    unfold node in *. unfold bind, ret. destruct (repeat_m masts _ s0) as [ms s3]. unfold made. cbn [fst snd] in *. rewrite app_length. cbn [length].
    split; [lia|]. split; [lia|]. split; [|eapply ok_incl; [exact J4|apply incl_refl|incls]].
    intros n Hx. apply in_app_or in Hx as [Hx|[<-|Hx]]; [specialize (I3 n Hx)|lia|specialize (J3 n Hx)]; lia.
  Qed.

  (** ** A cluster *)
  Definition fine_counts (c : counts) : Prop :=
    (ct_pipe_net c <= 50)%nat /\ (list_sum (ct_boreholes c) <= 28)%nat /\ ct_boreholes c <> [] /\ Forall (fun b => (1 <= b)%nat) (ct_boreholes c).
  Definition cluster_size (c : counts) (given : option roads) : nat :=
    (match given with None => 16 | Some _ => 12 end + 2 * ct_pipe_nodes c + ct_pipe_net c + ct_masts c + 3 * length (ct_boreholes c) + list_sum (ct_boreholes c))%nat.
  Lemma le_list_sum l b : In b l -> (b <= list_sum l)%nat.
  Proof. unfold list_sum. induction l as [|x r IH]; cbn; [tauto|]. intros [->|H]; [lia|specialize (IH H); lia]. Qed.
  Definition road_ids (r : roads) : list nat := [rd_min r; rd_temp r; rd_final r].
  Lemma cluster_made c given s tops open h : fine_counts c -> ok s tops open h -> (forall r, given = Some r -> known s (road_ids r)) ->
    let x := get_cluster_works u c given s in
    let id := fst (fst (fst x)) in let r := snd (fst (fst x)) in
    snd (fst x) = cluster_size c given /\ size (snd x) = (size s + cluster_size c given)%nat /\ (size s <= id < size (snd x))%nat /\
    match given with Some r' => r = r' | None => known (snd x) (road_ids r) /\ (size s <= rd_min r)%nat end /\
    ok (snd x) (match given with Some _ => tops | None => rd_min r :: tops end) (id :: open) (h ++ [id]).
  Proof.
    intros (F1 & F2 & F3 & F4) H Hgiven. cbn zeta. on (get_cluster_works u c given s). unfold get_cluster_works. unfold bind at 1.
    (* roads *)
    set (st := match given with Some r => ret (r, None, O) | None => bind (rand_float u 5 15) (fun d => bind (get_roads d) (fun r => ret (r, Some d, 3%nat))) end s).
    assert (ST : exists r high n0 s1, st = ((r, high, n0), s1) /\ n0 = match given with Some _ => O | None => 3%nat end /\ size s1 = (size s + n0)%nat /\
                 known s1 (road_ids r) /\ (forall d, high = Some d -> (0 <= d)%Q /\ (d <= 15)%Q) /\ match given with Some _ => high = None | None => high <> None end /\
                 ok s1 (match given with Some _ => tops | None => rd_min r :: tops end) (rd_final r :: open) h /\ match given with Some r' => r = r' | None => (size s <= rd_min r)%nat end).
    { subst st. destruct given as [r|].
      - exists r, None, O, s. unfold ret. repeat (split; [reflexivity || lia || (apply Hgiven; reflexivity) || (intros d; discriminate)|]).
        split; [eapply ok_incl; [exact H|apply incl_refl|incls]|reflexivity].
      - unfold bind at 1. destruct (float_draw 5 15 s tops open h H ltac:(discriminate)) as (A & B & C & D). destruct (rand_float u 5 15 s) as [d s1]. cbn [fst snd] in *.
        unfold bind at 1. destruct (roads_made d s1 tops open h D A B) as (R1 & R2 & R3 & R4 & R5). destruct (get_roads d s1) as [r s2]. cbn [fst snd] in *. unfold ret.
        exists r, (Some d), 3%nat, s2. split; [reflexivity|]. split; [reflexivity|]. split; [lia|]. split; [intros n Hn; unfold road_ids in Hn; cbn [In] in Hn; destruct Hn as [<-|[<-|[<-|[]]]]; lia|].
        split; [intros x E; injection E as <-; split; [lra|exact B]|]. split; [discriminate|]. split; [exact R5|lia]. }
    destruct ST as (r & high & n0 & s1 & -> & N0 & S1 & K1 & HH & HN & O1 & RR). clear H.
    assert (Kmin : known s1 [rd_min r]) by (intros n [<-|[]]; apply K1; cbn; auto).
    (* the works *)
    nd O1 (rd_final r :: open). unfold bind at 1.
    destruct (float_draw (1 # 2) 3 _ _ _ _ O1 ltac:(discriminate)) as (A1 & B1 & C1 & D1). destruct (rand_float u (1 # 2) 3 s0) as [line s2]. cbn [fst snd] in *. clear O1.
    set (stage := [rd_temp r; a]). assert (Hst : stage <> []) by discriminate.
    assert (Kst : known s2 stage) by (intros n [<-|[<-|[]]]; [assert (X := K1 (rd_temp r) ltac:(cbn; auto)); lia|lia]).
    unfold bind at 1. destruct (power_lines_made stage line high s2 _ [a] (rd_final r :: open) h D1 ltac:(intros n [<-|[]]; cbn; auto) Hst Kst ltac:(lra) ltac:(lra) HH) as (P1 & P2 & P3 & P4).
    destruct (get_power_lines stage line high s2) as [power s3]. cbn [fst snd] in *. clear D1.
    unfold bind at 1. destruct (float_draw (1 # 2) 3 _ _ _ _ P4 ltac:(discriminate)) as (A2 & B2 & C2 & D2). destruct (rand_float u (1 # 2) 3 s3) as [first s4]. cbn [fst snd] in *. clear P4.
    unfold bind at 1. destruct (floats_drawn (1 # 2) 3 (ct_pipe_nodes c) _ _ _ _ D2 ltac:(discriminate)) as (E1 & E2 & E3 & E4). destruct (repeat_m (ct_pipe_nodes c) _ s4) as [rest s5]. cbn [fst snd] in *. clear D2.
    assert (E2' : Forall (fun d => (0 <= d)%Q /\ (d <= 15)%Q) rest) by (eapply Forall_impl; [|exact E2]; intros d [? ?]; split; lra).
    unfold bind at 1. destruct (pipe_lines_made stage first rest s5 _ _ h E4 Hst ltac:(knows) ltac:(lra) ltac:(lra) E2') as (L1 & L2 & L3 & L4). destruct (get_pipe_lines stage first rest s5) as [pipes s6]. cbn [fst snd] in *. clear E4.
    unfold bind at 1. destruct (shared_made stage s6 _ _ h L4 Hst ltac:(knows)) as (M1 & M2 & M3 & M4). destruct (get_equipment_shared stage s6) as [shared s7]. cbn [fst snd] in *. clear L4.
    unfold bind at 1. destruct (general_made stage (ct_pipe_net c) (ct_masts c) s7 _ _ h M4 Hst ltac:(knows) F1) as (G1 & G2 & G3 & G4). destruct (get_equipment_general u stage (ct_pipe_net c) (ct_masts c) s7) as [general s8]. cbn [fst snd] in *. clear M4.
    unfold bind at 1.
    assert (F5 : Forall (fun b => (1 <= b <= 28)%nat) (ct_boreholes c)).
    { rewrite Forall_forall in *. intros b Hb. specialize (F4 b Hb). pose proof (le_list_sum _ _ Hb). lia. }
    assert (Ksh : known s8 shared) by (intros n Hn; specialize (M3 n Hn); lia).
    match type of G4 with ok _ ?t _ _ =>
      destruct (groups_made stage shared (ct_boreholes c) shared s8 t (general ++ pipes ++ power ++ rd_final r :: open) h) as (Q1 & Q2 & Q3 & Q4) end;
      [eapply ok_incl; [exact G4|apply incl_refl|incls]|apply incl_refl|exact Hst|knows|exact Ksh|exact F5|intros E; contradiction|].
    destruct (get_groups stage shared (ct_boreholes c) s8) as [[holes made_count] s9]. cbn [fst snd] in *. clear G4.
    unfold bind at 1. unfold node.
    match type of Q4 with ok _ ?t ?o _ =>
      destruct (node_ok FS Handing (mul_borehole_volume HANDING_STAGE (list_sum (ct_boreholes c)) HANDING_STAGE_BASE) (get_borehole_volume (list_sum (ct_boreholes c)) HANDING_STAGE_BASE)
        (rd_final r :: power ++ pipes ++ holes ++ general) s9 t o open h Q4 (or_introl eq_refl)) as (T1 & T2 & T3) end.
    { split; [apply good_handing; exact F2|apply vol_handing; exact F2]. }
    { intros n [<-|Hn]; [assert (X := K1 (rd_final r) ltac:(cbn; auto)); lia|]. rewrite !in_app_iff in Hn.
      destruct Hn as [Hn|[Hn|[Hn|Hn]]]; [specialize (P3 n Hn)|specialize (L3 n Hn)|specialize (Q3 n Hn)|specialize (G3 n Hn)]; lia. }
    { incls. }
    destruct (node_with FS Handing _ _ _ s9) as [id s10]. cbn [fst snd] in *. rewrite <- T1 in T3. unfold ret. subst post. cbn [fst snd].
    unfold cluster_size. assert (SZ : (size s10 = size s + (match given with None => 16 | Some _ => 12 end + 2 * ct_pipe_nodes c + ct_pipe_net c + ct_masts c + 3 * length (ct_boreholes c) + list_sum (ct_boreholes c)))%nat).
    { destruct given, high; try congruence; lia. }
    split; [unfold stage; cbn [length]; destruct given, high; try congruence; lia|]. split; [exact SZ|]. split; [lia|].
    split; [destruct given; [exact RR|split; [knows|exact RR]]|exact T3].
  Qed.

  (** ** Clusters *)
  Ltac cnt H lo hi c s1 := unfold bind at 1;
    lazymatch type of H with ok ?s ?tops ?open ?h =>
      let X := fresh "X" in let A := fresh "A" in let B := fresh "B" in let C := fresh "C" in
      pose proof (count_draw lo hi s tops open h H ltac:(lia) ltac:(lia)) as X; cbn zeta in X; unfold inject_Z in X; destruct X as (A & B & C);
      destruct (rand_count u (lo # 1) (hi # 1) s) as [c s1]; cbn [fst snd] in A, B, C; clear H; rename C into H
    end.
  Lemma small_counts_made s tops open h : ok s tops open h -> let x := small_counts u s in
    size (snd x) = size s /\ ok (snd x) tops open h /\ fine_counts (fst x) /\ (28 <= cluster_size (fst x) None <= 48)%nat.
  Proof.
    intros H. cbn zeta. on (small_counts u s). unfold small_counts. cnt H 1 3 p s1. cnt H 2 8 n s2. cnt H 1 3 m s3. cnt H 4 12 b s4.
    unfold ret. subst post. cbn [fst snd]. unfold fine_counts, cluster_size, list_sum. cbn [ct_pipe_nodes ct_pipe_net ct_masts ct_boreholes fold_right length].
    split; [lia|]. split; [exact H|]. split; [|lia]. split; [lia|]. split; [lia|]. split; [discriminate|]. constructor; [lia|constructor].
  Qed.
  Lemma graph_counts_made s tops open h : ok s tops open h -> let x := graph_counts u s in
    size (snd x) = size s /\ ok (snd x) tops open h /\ fine_counts (fst x) /\ (37 <= cluster_size (fst x) None <= 84)%nat /\
    (forall r, 33 <= cluster_size (fst x) (Some r) <= 80)%nat.
  Proof.
    intros H. cbn zeta. on (graph_counts u s). unfold graph_counts. cnt H 1 5 p s1. cnt H 6 20 n s2. cnt H 2 4 m s3. cnt H 8 28 b s4.
    unfold ret. subst post. cbn [fst snd]. unfold fine_counts, cluster_size, list_sum. cbn [ct_pipe_nodes ct_pipe_net ct_masts ct_boreholes].
    split; [lia|]. split; [exact H|]. destruct (Nat.leb_spec b 14); cbn [fold_right length].
    - split; [|split; intros; lia]. split; [lia|]. split; [lia|]. split; [discriminate|]. constructor; [lia|constructor].
    - split; [|split; intros; lia]. split; [lia|]. split; [lia|]. split; [discriminate|]. constructor; [lia|]. constructor; [lia|constructor].
  Qed.
  Lemma cluster_graph_made probability s tops open h : ok s tops open h ->
    let x := get_cluster_graph u probability s in let cps := fst (fst (fst x)) in let r := snd (fst (fst x)) in let count := snd (fst x) in
    (37 <= count <= 164)%nat /\ size (snd x) = (size s + count)%nat /\ (1 <= length cps <= 2)%nat /\ (forall n, In n cps -> (size s <= n < size (snd x))%nat) /\
    known (snd x) (road_ids r) /\ ok (snd x) (rd_min r :: tops) (cps ++ open) (h ++ cps).
  Proof.
    intros H. cbn zeta. on (get_cluster_graph u probability s). unfold get_cluster_graph. unfold bind at 1.
    destruct (graph_counts_made s tops open h H) as (A1 & A2 & A3 & A4 & A5). destruct (graph_counts u s) as [c s1]. cbn [fst snd] in *. clear H.
    unfold bind at 1. destruct (cluster_made c None s1 tops open h A3 A2 ltac:(discriminate)) as (B1 & B2 & B3 & (B4 & B4') & B5).
    destruct (get_cluster_works u c None s1) as [[[id r] k] s2]. cbn [fst snd] in *.
    unfold bind at 1. destruct (float_draw 0 1 _ _ _ _ B5 ltac:(discriminate)) as (_ & _ & D1 & D2). destruct (rand_float u 0 1 s2) as [x s3]. cbn [fst snd] in *. clear B5.
    destruct (Qle_bool x probability).
    - unfold bind at 1. assert (Kr : known s3 (road_ids r)) by knows.
      destruct (cluster_made c (Some r) s3 _ _ _ A3 D2 ltac:(intros r' E; injection E as <-; exact Kr)) as (C1 & C2 & C3 & C4 & C5).
      destruct (get_cluster_works u c (Some r) s3) as [[[id' r'] k'] s4]. cbn [fst snd] in *. specialize (A5 r). unfold ret. subst post. cbn [fst snd length].
      split; [lia|]. split; [lia|]. split; [lia|]. split; [intros n [<-|[<-|[]]]; lia|]. split; [knows|].
      rewrite <- app_assoc in C5. cbn [app] in C5. eapply ok_incl; [exact C5|apply incl_refl|incls].
    - unfold ret. subst post. cbn [fst snd length]. split; [lia|]. split; [lia|]. split; [lia|]. split; [intros n [<-|[]]; lia|]. split; [knows|exact D2].
  Qed.
  (** What holds after each iteration. *)
  Definition stages_ok (s : gstate) (stages : list (nat * roads)) : Prop :=
    ok s (map (fun st => rd_min (snd st)) stages) (map fst stages) (map fst stages) /\
    forall st, In st stages -> (fst st < size s)%nat /\ known s (road_ids (snd st)).
  Lemma root_stage_made m branching stages s tops open h : ok s tops open h ->
    let x := root_stage u m branching stages s in
    size (snd x) = size s /\ ok (snd x) tops open h /\
    (stages <> [] -> exists st, In st stages /\ (fst x = Some (fst st) \/ fst x = Some (rd_min (snd st)))) /\ (stages = [] -> fst x = None).
  Proof.
    intros H. assert (NE : forall i, stages <> [] -> (i < length stages)%nat -> exists st, In st stages /\ nth_error stages i = Some st).
    { intros i Hs Hi. destruct (nth_error stages i) as [st|] eqn:E; [|apply nth_error_None in E; lia]. exists st. split; [eapply nth_error_In; exact E|reflexivity]. }
    assert (LS : stages <> [] -> (0 < length stages)%nat) by (destruct stages; [congruence|cbn; lia]).
    destruct m; cbn zeta.
    - on (root_stage u General branching stages s). unfold root_stage. unfold bind at 1. cbn [random].
      set (s1 := GS _ _ _). assert (O1 : ok s1 tops open h) by (apply draw_ok, H). assert (Z1 : size s1 = size s) by reflexivity. clearbody s1.
      destruct (Qle_bool (u (gs_draw s)) branching && (2 <? length stages)%nat) eqn:E.
      + apply andb_true_iff in E as [_ E]. apply Nat.ltb_lt in E. unfold bind at 1. unfold randint. unfold bind at 1. cbn [random]. unfold ret at 1.
        set (i := (1 + _)%nat). assert (I : (i < length stages)%nat).
        { subst i. destruct (U (gs_draw s1)) as [U1 U2]. set (k := (S (length stages - 2) - 1)%nat).
          assert (F : Qfloor (u (gs_draw s1) * inject_Z (Z.of_nat k)) <= Z.of_nat k).
          { apply Z.le_trans with (Qfloor (inject_Z (Z.of_nat k))); [|rewrite Qfloor_Z; lia]. apply Qfloor_resp_le. assert (Hk : (0 <= inject_Z (Z.of_nat k))%Q) by (change 0%Q with (inject_Z 0); rewrite <- Zle_Qle; lia).
            apply Qle_trans with (1 * inject_Z (Z.of_nat k))%Q; [apply Qmult_le_compat_r; [lra|exact Hk]|rewrite Qmult_1_l; apply Qle_refl]. }
          subst k. lia. }
        unfold ret. subst post. cbn [fst snd]. split; [exact Z1|]. split; [apply draw_ok, O1|]. split.
        * intros Hs. destruct (NE i Hs I) as (st & H1 & H2). exists st. split; [exact H1|]. rewrite H2. destruct stages; [congruence|]. right. reflexivity.
        * intros ->. reflexivity.
      + unfold bind at 1. unfold ret. subst post. cbn [fst snd]. split; [exact Z1|]. split; [exact O1|]. split.
        * intros Hs. destruct (NE (length stages - 1)%nat Hs ltac:(specialize (LS Hs); lia)) as (st & H1 & H2). exists st. split; [exact H1|]. rewrite H2. destruct stages; [congruence|]. right. reflexivity.
        * intros ->. reflexivity.
    - cbn. split; [reflexivity|]. split; [exact H|]. split; [|intros ->; reflexivity]. destruct stages as [|st r]; [congruence|]. intros _. exists st. cbn. auto.
    - cbn. split; [reflexivity|]. split; [exact H|]. split; [|intros ->; reflexivity].
      intros Hs. destruct (NE (length stages - 1)%nat Hs ltac:(specialize (LS Hs); lia)) as (st & H1 & H2). exists st. split; [exact H1|]. rewrite H2. destruct stages; [congruence|]. left. reflexivity.
  Qed.
  Lemma add_root_made root cps s tops open h : ok s tops open h -> (forall p n, root = Some p -> In n cps -> (p < n < size s)%nat) ->
    size (snd (add_root root cps s)) = size s /\ ok (snd (add_root root cps s)) tops open h.
  Proof.
    intros H. revert s H. induction cps as [|n r IH]; intros s H Hr; [destruct root; cbn; auto|]. destruct root as [p|]; [|cbn; auto].
    cbn [add_root]. unfold bind. destruct (add_parent_ok n p s tops open h H) as [A B]; [apply (Hr p n eq_refl); cbn; auto|apply (Hr p n eq_refl); cbn; auto|].
    destruct (add_parent n p s) as [t s1]. cbn [fst snd] in *. destruct (IH s1 B) as [C D]; [intros p' n' E Hn; rewrite A; apply Hr; cbn; auto|]. rewrite C. auto.
  Qed.
  Definition stopped (cc bottom top : nat) (stages : nat) (works : nat) : Prop :=
    (0 < bottom /\ bottom <= works)%nat \/ (0 < top /\ top < works + 164)%nat \/ (0 < cc /\ cc + 1 <= stages)%nat.
  Lemma clusters_made fuel m cc bottom top branching : forall probability stages s,
    stages_ok s stages ->
    ((0 < bottom -> size s < bottom) /\ (0 < top -> size s + 37 <= top \/ size s = 0) /\ (0 < cc -> length stages <= cc))%nat ->
    (0 < cc + bottom + top)%nat ->
    ((0 < cc -> cc + 1 <= fuel + length stages) /\ (0 < bottom -> bottom <= fuel + size s) /\ (0 < top -> S top <= fuel + size s))%nat -> (1 <= fuel)%nat ->
    let x := clusters u fuel m cc bottom top branching probability stages (size s) s in
    exists stages', fst x = Some stages' /\ stages_ok (snd x) stages' /\ (length stages < length stages')%nat /\ stopped cc bottom top (length stages') (size (snd x)) /\
      ((0 < bottom -> size (snd x) < bottom + 164) /\ (0 < top -> size (snd x) <= Nat.max 164 (top + 127)) /\ (0 < cc -> length stages' <= cc + 2))%nat.
  Proof.
    induction fuel as [|fuel IH]; intros probability stages s [HO HS] HP Hpos HF H1; [lia|]. clear H1.
    cbn zeta. on (clusters u (S fuel) m cc bottom top branching probability stages (size s) s). cbn [clusters]. set (prob := if _ : bool then 0%Q else probability). clearbody prob.
    unfold bind at 1. destruct (cluster_graph_made prob s _ _ _ HO) as (A1 & A2 & A3 & A4 & A5 & A6).
    destruct (get_cluster_graph u prob s) as [[[cps r] count] s1]. cbn [fst snd] in *. clear HO.
    unfold bind at 1. destruct (root_stage_made m branching stages s1 _ _ _ A6) as (B1 & B2 & B3 & B4). destruct (root_stage u m branching stages s1) as [root s2]. cbn [fst snd] in *. clear A6.
    unfold bind at 1. destruct (add_root_made root cps s2 _ _ _ B2) as (C1 & C2).
    { intros p n -> Hn. specialize (A4 n Hn). destruct stages as [|st0 rest]; [specialize (B4 eq_refl); discriminate|].
      destruct (B3 ltac:(discriminate)) as (st & Hst & [E|E]); injection E as ->; destruct (HS st Hst) as [K1 K2]; [lia|]. specialize (K2 (rd_min (snd st)) ltac:(cbn; auto)). lia. }
    destruct (add_root root cps s2) as [t s3]. cbn [fst snd] in *. clear B2 t.
    set (stages' := stages ++ map (fun h => (h, r)) cps).
    assert (Len : length stages' = (length stages + length cps)%nat) by (subst stages'; rewrite app_length, map_length; reflexivity).
    assert (OK' : stages_ok s3 stages').
    { split.
      - replace (map fst stages') with (map fst stages ++ cps) at 2 by (subst stages'; rewrite map_app, map_map; cbn [fst]; rewrite map_id; reflexivity). eapply ok_incl; [exact C2| |].
        + intros x [<-|Hx]; [|subst stages'; rewrite map_app; apply in_or_app; left; exact Hx]. subst stages'. rewrite map_app, map_map. apply in_or_app. right.
          destruct cps; [cbn in A3; lia|left; reflexivity].
        + intros x Hx. subst stages'. rewrite map_app, map_map. cbn [fst]. rewrite map_id. apply in_app_or in Hx as [Hx|Hx]; apply in_or_app; auto.
      - intros st Hst. subst stages'. apply in_app_or in Hst as [Hst|Hst].
        + destruct (HS st Hst). split; [lia|knows].
        + apply in_map_iff in Hst as (n & <- & Hn). cbn [fst snd]. specialize (A4 n Hn). split; [lia|knows]. }
    assert (Sz : (size s + count)%nat = size s3) by lia. rewrite Sz.
    destruct (((0 <? bottom)%nat && (bottom <=? size s3)%nat) || ((0 <? top)%nat && (top <? count + size s3)%nat) || ((0 <? cc)%nat && (cc <=? length stages' - 1)%nat)) eqn:E.
    - unfold ret. subst post. cbn [fst snd]. exists stages'. split; [reflexivity|]. split; [exact OK'|]. split; [lia|]. split; [unfold stopped; lia|]. lia.
    - assert (N : ((0 < bottom -> size s3 < bottom) /\ (0 < top -> size s3 + 37 <= top \/ size s3 = 0) /\ (0 < cc -> length stages' <= cc))%nat) by lia.
      clear E. assert (HF' : ((0 < cc -> cc + 1 <= fuel + length stages') /\ (0 < bottom -> bottom <= fuel + size s3) /\ (0 < top -> S top <= fuel + size s3))%nat) by (clear - HF A1 A3 Len Sz; lia).
      assert (Hf1 : (1 <= fuel)%nat) by (clear - HF' N Hpos; lia). destruct (IH prob stages' s3 OK' N Hpos HF' Hf1) as (st' & I1 & I2 & I3 & I4 & I5). subst post. cbn beta. exists st'. split; [exact I1|]. split; [exact I2|]. split; [clear - I3 Len A3; lia|]. split; [exact I4|exact I5].
  Qed.
End WithDraws.

(** ** Links between clusters *)
Definition grows (s s' : gstate) : Prop := (exists l, gs_works s' = gs_works s ++ l) /\ incl (gs_edges s) (gs_edges s').
Definition grow_m {A} (m : M A) : Prop := forall s, grows s (snd (m s)).
Lemma grows_refl s : grows s s. Proof. split; [exists []; rewrite app_nil_r; reflexivity|apply incl_refl]. Qed.
Lemma grows_trans a b c : grows a b -> grows b c -> grows a c.
Proof. intros [[l E] I] [[l' E'] I']. split; [exists (l ++ l'); rewrite E', E, app_assoc; reflexivity|eapply incl_tran; eassumption]. Qed.
Lemma grow_ret {A} (a : A) : grow_m (ret a). Proof. intros s. apply grows_refl. Qed.
Lemma grow_bind {A B} (m : M A) (k : A -> M B) : grow_m m -> (forall a, grow_m (k a)) -> grow_m (bind m k).
Proof. intros H1 H2 s. unfold bind. specialize (H1 s). destruct (m s) as [a s1]. eapply grows_trans; [exact H1|apply H2]. Qed.
Lemma grow_random u : grow_m (random u).
Proof. intros s. split; [exists []; cbn; rewrite app_nil_r; reflexivity|apply incl_refl]. Qed.
Lemma grow_node t n r v p : grow_m (node_with t n r v p).
Proof. intros s. split; [exists [GW n r v]; reflexivity|apply incl_appl, incl_refl]. Qed.
Lemma grow_parent n p : grow_m (add_parent n p).
Proof. intros s. split; [exists []; cbn; rewrite app_nil_r; reflexivity|apply incl_appl, incl_refl]. Qed.
Ltac grow := repeat first [apply grow_ret|apply grow_random|apply grow_node|apply grow_parent|apply grow_bind; [|intros]|match goal with |- context [let '(_, _) := ?x in _] => destruct x end|match goal with |- context [if ?x then _ else _] => destruct x end|match goal with |- context [match ?x with Some _ => _ | None => _ end] => destruct x end|assumption].
Lemma grow_repeat {A} k (m : M A) : grow_m m -> grow_m (repeat_m k m).
Proof. intros H. induction k as [|k IH]; cbn [repeat_m]; grow. Qed.
Lemma grow_segments P d : grow_m (get_segments P d). Proof. induction d as [|x r IH]; cbn [get_segments]; unfold node; grow. Qed.
Lemma grow_net u P k : forall q, grow_m (get_pipe_net u P k q). Proof. induction k as [|k IH]; intros q; cbn [get_pipe_net]; unfold node, rand_float; grow. apply IH. Qed.
Lemma grow_groups P sh l : grow_m (get_groups P sh l).
Proof. induction l as [|b r IH]; cbn [get_groups]; unfold get_equipment_group, get_boreholes, node; grow. apply grow_repeat; grow. Qed.
Lemma grow_general u P k n : grow_m (get_equipment_general u P k n).
Proof. unfold get_equipment_general, node. apply grow_bind; [apply grow_net|intros]. grow. apply grow_repeat; grow. Qed.
Lemma grow_power P l h : grow_m (get_power_lines P l h). Proof. unfold get_power_lines, node. grow. Qed.
Lemma grow_shared P : grow_m (get_equipment_shared P). Proof. unfold get_equipment_shared, node. grow. Qed.
Lemma grow_pipes P a l : grow_m (get_pipe_lines P a l). Proof. unfold get_pipe_lines, node. grow. apply grow_segments. Qed.
Lemma grow_roads d : grow_m (get_roads d). Proof. unfold get_roads, node. grow. Qed.
Lemma grow_float u a b : grow_m (rand_float u a b). Proof. unfold rand_float. grow. Qed.
Ltac grow_parts := first [apply grow_float|apply grow_roads|apply grow_power|apply grow_pipes|apply grow_shared|apply grow_general|apply grow_groups|apply grow_repeat, grow_float].
Ltac grow_all := repeat first [grow_parts|apply grow_ret|apply grow_random|apply grow_node|apply grow_bind; [|intros]|match goal with |- context [let '(_, _) := ?x in _] => destruct x end|match goal with |- context [match ?x with Some _ => _ | None => _ end] => destruct x end].
Lemma grow_cluster u c g : grow_m (get_cluster_works u c g).
Proof. unfold get_cluster_works, node. grow_all. Qed.
Lemma grow_cluster_graph u q : grow_m (get_cluster_graph u q).
Proof.
  unfold get_cluster_graph, graph_counts, rand_count. repeat first [apply grow_cluster|grow_parts|apply grow_ret|apply grow_bind; [|intros]
    |match goal with |- context [let '(_, _) := ?x in _] => destruct x end|match goal with |- context [if ?x then _ else _] => destruct x end].
Qed.
Lemma grow_root u m b st : grow_m (root_stage u m b st). Proof. unfold root_stage, randint. destruct m; grow. Qed.
Lemma grow_add_root r l : grow_m (add_root r l). Proof. induction l as [|n t IH]; destruct r as [p|]; cbn [add_root]; grow. Qed.

Definition min_road (s : gstate) (n : nat) : Prop := exists w, nth_error (gs_works s) n = Some w /\ gw_name w = MinRoad.
Lemma min_road_grows s s' n : grows s s' -> min_road s n -> min_road s' n.
Proof. intros [[l E] _] (w & H & N). exists w. split; [|exact N]. rewrite E, nth_error_app1; [exact H|]. apply nth_error_Some. congruence. Qed.
Lemma bind_min {A B} (m : M A) (k : A -> M B) (P : B * gstate -> Prop) n s : grow_m m -> min_road s n -> (forall a s', min_road s' n -> P (k a s')) -> P (bind m k s).
Proof. intros H1 H2 H3. unfold bind. specialize (H1 s). destruct (m s) as [a s1]. apply H3. eapply min_road_grows; [exact H1|exact H2]. Qed.
Lemma cluster_min u c s : let x := get_cluster_works u c None s in min_road (snd x) (rd_min (snd (fst (fst x)))).
Proof.
  cbn zeta. on (get_cluster_works u c None s). unfold get_cluster_works. unfold bind at 1.
  set (st := bind (rand_float u 5 15) (fun d => bind (get_roads d) (fun r => ret (r, Some d, 3%nat))) s).
  assert (ST : exists r high n0 s1, st = ((r, high, n0), s1) /\ min_road s1 (rd_min r)).
  { subst st. unfold bind at 1. destruct (rand_float u 5 15 s) as [d s0]. unfold bind at 1. unfold get_roads, node. unfold bind, ret. cbn. eexists _, _, _, _. split; [reflexivity|].
    unfold min_road. cbn [gs_works rd_min]. eexists. split; [rewrite <- !app_assoc; rewrite nth_error_app2, Nat.sub_diag by lia; reflexivity|reflexivity]. }
  destruct ST as (r & high & n0 & s1 & -> & H1).
  assert (T : forall x, snd (fst (fst x)) = r -> min_road (snd x) (rd_min r) -> post x) by (intros x E H; subst post; cbn beta; rewrite E; exact H). clearbody post.
  unfold node.
  apply (bind_min _ _ post (rd_min r)); [grow|exact H1|clear H1; intros a s2 H2]. apply (bind_min _ _ post (rd_min r)); [apply grow_float|exact H2|clear H2; intros a2 s3 H3].
  apply (bind_min _ _ post (rd_min r)); [apply grow_power|exact H3|clear H3; intros a3 s4 H4]. apply (bind_min _ _ post (rd_min r)); [apply grow_float|exact H4|clear H4; intros a4 s5 H5].
  apply (bind_min _ _ post (rd_min r)); [apply grow_repeat, grow_float|exact H5|clear H5; intros a5 s6 H6]. apply (bind_min _ _ post (rd_min r)); [apply grow_pipes|exact H6|clear H6; intros a6 s7 H7].
  apply (bind_min _ _ post (rd_min r)); [apply grow_shared|exact H7|clear H7; intros a7 s8 H8]. apply (bind_min _ _ post (rd_min r)); [apply grow_general|exact H8|clear H8; intros a8 s9 H9].
  apply (bind_min _ _ post (rd_min r)); [apply grow_groups|exact H9|clear H9; intros a9 s10 H10]. apply (bind_min _ _ post (rd_min r)); [grow|exact H10|clear H10; intros a10 s11 H11].
  apply T; [reflexivity|exact H11].
Qed.
Lemma cluster_graph_min u q s : let x := get_cluster_graph u q s in min_road (snd x) (rd_min (snd (fst (fst x)))).
Proof.
  cbn zeta. on (get_cluster_graph u q s). unfold get_cluster_graph. unfold bind at 1. destruct (graph_counts u s) as [c s1]. unfold bind at 1.
  assert (H := cluster_min u c s1). destruct (get_cluster_works u c None s1) as [[[h r] k] s2]. cbn [fst snd] in H. unfold bind at 1. assert (G := grow_float u 0 1 s2). destruct (rand_float u 0 1 s2) as [x s3]. cbn [snd] in G.
  apply (min_road_grows _ _ _ G) in H. destruct (Qle_bool x q); [|subst post; exact H]. unfold bind at 1. assert (G' := grow_cluster u c (Some r) s3). destruct (get_cluster_works u c (Some r) s3) as [[[h' r'] k'] s4]. cbn [snd] in G'.
  subst post. cbn. eapply min_road_grows; eassumption.
Qed.
(** an edge *)
Definition joined (s : gstate) (a b : nat) : Prop := exists e, In e (gs_edges s) /\ e_from e = a /\ e_to e = b.
Lemma joined_grows s s' a b : grows s s' -> joined s a b -> joined s' a b.
Proof. intros [_ I] (e & He & E). exists e. split; [apply I, He|exact E]. Qed.
Lemma add_root_joins p cps n : In n cps -> forall s, joined (snd (add_root (Some p) cps s)) p n.
Proof.
  induction cps as [|x r IH]; intros Hn s; [destruct Hn|]. cbn [add_root]. unfold bind. assert (J : joined (snd (add_parent x p s)) p x).
  { exists (Ed p x 0 FS). split; [cbn; apply in_or_app; right; left; reflexivity|auto]. }
  destruct (add_parent x p s) as [t s1]. cbn [snd] in J. destruct Hn as [->|Hn]; [|apply IH, Hn]. eapply joined_grows; [apply grow_add_root|exact J].
Qed.
Definition mode_links (m : mode) (s : gstate) (stages : list (nat * roads)) : Prop :=
  (forall st, In st stages -> min_road s (rd_min (snd st))) /\
  forall i n, (2 <= i)%nat -> nth_error (map fst stages) i = Some n ->
    match m with
    | Parallel => exists first, nth_error (map fst stages) 0 = Some first /\ joined s first n
    | Sequential => exists before, (nth_error (map fst stages) (i - 1) = Some before \/ nth_error (map fst stages) (i - 2) = Some before) /\ joined s before n
    | General => exists road, min_road s road /\ joined s road n
    end.
(** what the new stages depend on *)
Definition root_of (m : mode) (stages : list (nat * roads)) (root : option nat) : Prop :=
  match m with
  | Parallel => root = option_map fst (hd_error stages)
  | Sequential => root = nth_error (map fst stages) (length stages - 1)
  | General => stages <> [] -> exists st, In st stages /\ root = Some (rd_min (snd st))
  end.
Lemma root_stage_mode u m branching stages s : unit_draws u -> root_of m stages (fst (root_stage u m branching stages s)).
Proof.
  intros U. destruct m; cbn [root_of].
  - intros Hs. assert (LS : (0 < length stages)%nat) by (destruct stages; [congruence|cbn; lia]).
    assert (NE : forall i, (i < length stages)%nat -> exists st, In st stages /\ match stages with [] => None | _ => option_map (fun st => rd_min (snd st)) (nth_error stages i) end = Some (rd_min (snd st))).
    { intros i Hi. destruct (nth_error stages i) as [st|] eqn:E; [|apply nth_error_None in E; lia]. exists st. split; [eapply nth_error_In; exact E|]. destruct stages; [congruence|reflexivity]. }
    unfold root_stage. unfold bind at 1. cbn [random].
    destruct (Qle_bool (u (gs_draw s)) branching && (2 <? length stages)%nat) eqn:E.
    + apply andb_true_iff in E as [_ E]. apply Nat.ltb_lt in E. unfold bind at 1. unfold randint. unfold bind at 1. cbn [random]. unfold ret at 1. unfold ret. cbn [fst]. apply NE.
      match goal with |- context [u ?d] => destruct (U d) as [U1 U2]; set (x := u d) in * end. set (k := (S (length stages - 2) - 1)%nat).
      assert (F : Qfloor (x * inject_Z (Z.of_nat k)) <= Z.of_nat k).
      { apply Z.le_trans with (Qfloor (inject_Z (Z.of_nat k))); [|rewrite Qfloor_Z; lia]. apply Qfloor_resp_le. assert (Hk : (0 <= inject_Z (Z.of_nat k))%Q) by (change 0%Q with (inject_Z 0); rewrite <- Zle_Qle; lia).
        apply Qle_trans with (1 * inject_Z (Z.of_nat k))%Q; [apply Qmult_le_compat_r; [lra|exact Hk]|rewrite Qmult_1_l; apply Qle_refl]. }
      subst k. lia.
    + unfold bind at 1. unfold ret. cbn [fst]. apply NE. lia.
  - reflexivity.
  - cbn. rewrite nth_error_map. destruct stages; reflexivity.
Qed.
Lemma clusters_mode u fuel m cc bottom top branching : unit_draws u -> forall probability stages works s stages',
  (stages = [] \/ (1 <= length stages)%nat) -> mode_links m s stages ->
  fst (clusters u fuel m cc bottom top branching probability stages works s) = Some stages' ->
  mode_links m (snd (clusters u fuel m cc bottom top branching probability stages works s)) stages'.
Proof.
  intros U. induction fuel as [|fuel IH]; intros probability stages works s stages' H0 HM HE; [discriminate HE|]. revert HE.
  on (clusters u (S fuel) m cc bottom top branching probability stages works s). cbn [clusters]. set (prob := if _ : bool then 0%Q else probability). clearbody prob.
  unfold bind at 1. assert (G1 := grow_cluster_graph u prob s). assert (M1 := cluster_graph_min u prob s). cbn zeta in M1.
  assert (A3 : (1 <= length (fst (fst (fst (get_cluster_graph u prob s)))) <= 2)%nat).
  { unfold get_cluster_graph, bind. destruct (graph_counts u s) as [c s1]. destruct (get_cluster_works u c None s1) as [[[h r] k] s2]. destruct (rand_float u 0 1 s2) as [x s3].
    destruct (Qle_bool x prob); [destruct (get_cluster_works u c (Some r) s3) as [[[h' r'] k'] s4]|]; cbn; lia. }
  destruct (get_cluster_graph u prob s) as [[[cps r] count] s1]. cbn [fst snd] in *.
  unfold bind at 1. assert (G2 := grow_root u m branching stages s1). assert (R := root_stage_mode u m branching stages s1 U). destruct (root_stage u m branching stages s1) as [root s2]. cbn [fst snd] in *.
  unfold bind at 1. assert (G3 := grow_add_root root cps s2). assert (J : forall p n, root = Some p -> In n cps -> joined (snd (add_root root cps s2)) p n) by (intros p n -> Hn; apply add_root_joins, Hn).
  destruct (add_root root cps s2) as [t s3]. cbn [fst snd] in *. assert (G : grows s s3) by (eapply grows_trans; [exact G1|eapply grows_trans; eassumption]).
  set (stages1 := stages ++ map (fun h => (h, r)) cps).
  assert (F1 : map fst stages1 = map fst stages ++ cps) by (subst stages1; rewrite map_app, map_map; cbn [fst]; rewrite map_id; reflexivity).
  assert (HM' : mode_links m s3 stages1).
  { destruct HM as [HM1 HM2]. split.
    - intros st Hst. apply in_app_or in Hst as [Hst|Hst]; [eapply min_road_grows; [exact G|apply HM1, Hst]|].
      apply in_map_iff in Hst as (n & <- & Hn). cbn [snd]. eapply min_road_grows; [exact (grows_trans _ _ _ G2 G3)|exact M1].
    - intros i n Hi Hn. rewrite F1 in Hn. assert (Lm : length (map fst stages) = length stages) by apply map_length. destruct (Nat.lt_ge_cases i (length stages)) as [L|L].
      + rewrite nth_error_app1 in Hn by lia. specialize (HM2 i n Hi Hn). destruct m.
        * destruct HM2 as (road & X & Y). exists road. split; [eapply min_road_grows; eassumption|eapply joined_grows; eassumption].
        * destruct HM2 as (f & X & Y). exists f. split; [rewrite F1, nth_error_app1 by lia; exact X|eapply joined_grows; eassumption].
        * destruct HM2 as (f & X & Y). exists f. split; [rewrite F1, !nth_error_app1 by lia; exact X|eapply joined_grows; eassumption].
      + rewrite nth_error_app2 in Hn by lia. assert (Hin : In n cps) by (eapply nth_error_In; exact Hn). assert (Hlt : (i - length stages < length cps)%nat) by (rewrite Lm in Hn; apply nth_error_Some; congruence).
        assert (Hne : stages <> []) by (intros ->; cbn in Hlt; lia). destruct m; cbn [root_of] in R.
        * destruct (R Hne) as (st & X & Y). exists (rd_min (snd st)). split; [eapply min_road_grows; [exact G|apply HM1, X]|apply J; assumption].
        * destruct stages as [|st0 rest]; [congruence|]. cbn in R. exists (fst st0). split; [rewrite F1; reflexivity|apply J; assumption].
        * destruct (nth_error (map fst stages) (length stages - 1)) as [b|] eqn:Eb; [|apply nth_error_None in Eb; destruct stages; [congruence|cbn in *; lia]].
          exists b. split; [|apply J; assumption]. rewrite F1. assert (C : (i = length stages \/ i = S (length stages))%nat) by lia. destruct C as [->| ->]; [left|right].
          -- rewrite nth_error_app1; [exact Eb|]. destruct stages; [congruence|cbn in *; lia].
          -- replace (S (length stages) - 2)%nat with (length stages - 1)%nat by lia. rewrite nth_error_app1; [exact Eb|]. destruct stages; [congruence|cbn in *; lia]. }
  match goal with |- post ((if ?b then _ else _) _) => destruct b end.
  - unfold ret. subst post. cbn [fst snd]. intros E. injection E as <-. exact HM'.
  - subst post. cbn beta. intros E. apply IH; [|exact HM'|exact E]. right. subst stages1. rewrite app_length, map_length. lia.
Qed.
Lemma empty_links m : mode_links m (GS [] [] 0) [].
Proof. split; [intros st []|]. intros i n _ H. destruct i; discriminate H. Qed.

(** ** The work graph *)
From Verif Require Import TraverseProofs Digraph TopoTheorems TraverseTheorems PipelineTheorems ScheduleInv TopoProofs.
Lemma follow_start_spec start nodes : forall g, exists l, g_edges (follow_start start g nodes) = g_edges g ++ l /\ g_unit (follow_start start g nodes) = g_unit g /\
  (forall e, In e l -> exists n, In n nodes /\ e = Ed start n 0 FS) /\
  (forall n, In n nodes -> exists e, In e (g_edges g ++ l) /\ e_to e = n).
Proof.
  induction nodes as [|n r IH]; intros g; cbn [follow_start]; [exists []; rewrite app_nil_r; split; [reflexivity|]; split; [reflexivity|]; split; intros x []|].
  destruct (parents g n) as [|p ps] eqn:E.
  - destruct (IH (Gr (g_edges g ++ [Ed start n 0 FS]) (g_unit g))) as (l & A & B & C & D). cbn [g_edges g_unit] in *. exists (Ed start n 0 FS :: l). rewrite <- app_assoc in A, D. cbn [app] in A, D.
    split; [exact A|]. split; [exact B|]. split.
    + intros e [<-|He]; [exists n; cbn; auto|]. destruct (C e He) as (m & Hm & Em). exists m. cbn; auto.
    + intros m [<-|Hm]; [exists (Ed start n 0 FS); split; [apply in_or_app; right; left; reflexivity|reflexivity]|]. apply D, Hm.
  - destruct (IH g) as (l & A & B & C & D). exists l. split; [exact A|]. split; [exact B|]. split.
    + intros e He. destruct (C e He) as (m & Hm & Em). exists m. cbn; auto.
    + intros m [<-|Hm]; [|apply D, Hm]. assert (X : In p (parents g n)) by (rewrite E; left; reflexivity). unfold parents in X.
      apply in_map_iff in X as (e & _ & He). apply filter_In in He as [He _]. apply edges_to_in in He as [He Ee]. exists e. split; [apply in_or_app; auto|exact Ee].
Qed.
Lemma rank_acyclic (R : nat -> nat -> Prop) (f : nat -> nat) : (forall x y, R x y -> (f x < f y)%nat) -> acyclic R.
Proof. intros H x P. assert (X : forall a b, path R a b -> (f a < f b)%nat) by (intros a b Q; induction Q; [auto|lia]). specialize (X x x P). lia. Qed.

Section FromNodes.
  Variable unit : Q -> Z.
  Variable s : gstate.
  Variables tops open nodes h : list nat.
  Hypothesis HO : ok s tops open h.
  Hypothesis Hk : known s nodes.
  Hypothesis Ht : incl tops nodes.
  Hypothesis Ho : incl open nodes.
  Hypothesis Hne : (0 < size s)%nat.
  Lemma from_nodes_legal : exists w, from_some_nodes unit s nodes = Some (Ends w) /\ legal_graph unit (gs_works s) w /\ forall a b, joined s a b -> linked (wg_graph w) a b.
  Proof.
    set (start := size s). set (finish := S start). unfold from_some_nodes. fold (size s). fold start. fold finish.
    destruct (follow_start_spec start nodes (graph_of unit s)) as (l & E1 & E2 & L1 & L2). cbn [graph_of g_edges g_unit] in *. set (g1 := follow_start start (graph_of unit s) nodes) in *.
    set (ends := filter _ nodes).
    assert (Ends : forall n, In n ends <-> In n nodes /\ forall e, In e (gs_edges s) -> e_from e <> n).
    { intros n. subst ends. rewrite filter_In. split.
      - intros [Hn X]. split; [exact Hn|]. intros e He Ee. destruct (children g1 n) as [|c cs] eqn:C; [|discriminate X].
        assert (Y : In (e_to e) (children g1 n)); [|rewrite C in Y; destruct Y]. unfold children. apply in_map. apply filter_In. split; [apply edges_from_in; split; [rewrite E1; apply in_or_app; auto|exact Ee]|].
        destruct (ok_edges _ _ _ _ HO e He) as (_ & _ & [T|T] & _); rewrite T; reflexivity.
      - intros [Hn X]. split; [exact Hn|]. destruct (children g1 n) as [|c cs] eqn:C; [reflexivity|]. exfalso.
        assert (Y : In c (children g1 n)) by (rewrite C; left; reflexivity). unfold children in Y. apply in_map_iff in Y as (e & _ & He). apply filter_In in He as [He _].
        apply edges_from_in in He as [He Ee]. rewrite E1 in He. apply in_app_or in He as [He|He]; [apply (X e He Ee)|].
        destruct (L1 e He) as (m & _ & ->). cbn in Ee. specialize (Hk n Hn). subst n. lia. }
    assert (Last : In (size s - 1)%nat ends).
    { apply Ends. destruct (ok_open _ _ _ _ HO (size s - 1)%nat ltac:(lia)) as [(e & He & Ee)|X].
      - exfalso. destruct (ok_edges _ _ _ _ HO e He) as (A & B & _). lia.
      - split; [apply Ho, X|]. intros e He Ee. destruct (ok_edges _ _ _ _ HO e He) as (A & B & _). lia. }
    destruct ends as [|x0 r0] eqn:Ee; [destruct Last|]. rewrite <- Ee in *. clear Ee x0 r0.
    set (es := g_edges g1 ++ map (fun n => Ed n finish 0 FS) ends). set (g2 := Gr es (g_unit g1)).
    assert (ES : forall e, In e es <-> In e (gs_edges s) \/ In e l \/ exists n, In n ends /\ e = Ed n finish 0 FS).
    { intros e. unfold es. rewrite in_app_iff, E1, in_app_iff, in_map_iff. split; [intros [[X|X]|(n & <- & X)]; eauto|intros [X|[X|(n & X & ->)]]; eauto]. }
    assert (Kind : forall e, In e es -> (e_type e = FS \/ e_type e = FFS) /\ e_lag e = 0).
    { intros e He. apply ES in He as [He|[He|(n & _ & ->)]]; [apply (ok_edges _ _ _ _ HO e He)|destruct (L1 e He) as (n & _ & ->); cbn; auto|cbn; auto]. }
    set (rank := fun n => if Nat.eqb n start then O else S n).
    assert (Rank : forall e, In e es -> (rank (e_from e) < rank (e_to e) /\ e_from e <= start /\ e_to e <= finish)%nat).
    { intros e He. unfold rank. apply ES in He as [He|[He|(n & Hn & ->)]].
      - destruct (ok_edges _ _ _ _ HO e He) as (A & B & _). subst start finish. destruct (Nat.eqb_spec (e_from e) (size s)), (Nat.eqb_spec (e_to e) (size s)); lia.
      - destruct (L1 e He) as (n & Hn & ->). cbn [e_from e_to]. rewrite Nat.eqb_refl. specialize (Hk n Hn). subst start finish. destruct (Nat.eqb_spec n (size s)); lia.
      - apply Ends in Hn as [Hn _]. specialize (Hk n Hn). cbn [e_from e_to]. subst start finish. destruct (Nat.eqb_spec n (size s)), (Nat.eqb_spec (S (size s)) (size s)); lia. }
    set (all := seq 0 (size s + 2)).
    assert (All : forall n, In n all <-> (n <= finish)%nat) by (intros n; unfold all; rewrite in_seq; subst finish start; lia).
    assert (Dep : forall x y, linked g2 x y -> depends_on g2 x y).
    { intros x y (e & He & <- & <-). exists e. split; [exact He|]. split; [destruct (Kind e He) as [[T|T] _]; rewrite T; reflexivity|auto]. }
    assert (Pre : forall n, (n <= finish)%nat -> n = start \/ exists p, linked g2 p n).
    { intros n Hn. destruct (Nat.eq_dec n start) as [->|N1]; [auto|right]. destruct (Nat.eq_dec n finish) as [->|N2].
      - exists (size s - 1)%nat, (Ed (size s - 1) finish 0 FS)%nat. split; [apply ES; right; right; eauto|auto].
      - destruct (ok_tops _ _ _ _ HO n ltac:(subst start finish; lia)) as [(e & He & Ee)|X].
        + exists (e_from e), e. split; [apply ES; auto|auto].
        + destruct (L2 n (Ht _ X)) as (e & He & Ee). exists (e_from e), e. split; [apply ES; apply in_app_or in He as [He|He]; auto|auto]. }
    assert (Suc : forall n, (n <= finish)%nat -> n = finish \/ exists c, linked g2 n c).
    { intros n Hn. destruct (Nat.eq_dec n finish) as [->|N2]; [auto|right]. destruct (Nat.eq_dec n start) as [->|N1].
      - destruct (ok_tops _ _ _ _ HO 0%nat Hne) as [(e & He & Ee)|X]; [exfalso; destruct (ok_edges _ _ _ _ HO e He) as (A & _); lia|].
        destruct (L2 0%nat (Ht _ X)) as (e & He & Ee). apply in_app_or in He as [He|He]; [exfalso; destruct (ok_edges _ _ _ _ HO e He) as (A & _); lia|].
        destruct (L1 e He) as (m & Hm & ->). exists m, (Ed start m 0 FS). split; [apply ES; auto|auto].
      - destruct (ok_open _ _ _ _ HO n ltac:(subst start finish; lia)) as [(e & He & Ee)|X].
        + exists (e_to e), e. split; [apply ES; auto|auto].
        + destruct (existsb (fun e => Nat.eqb (e_from e) n) (gs_edges s)) eqn:B.
          * apply existsb_exists in B as (e & He & Ee). apply Nat.eqb_eq in Ee. exists (e_to e), e. split; [apply ES; auto|auto].
          * exists finish, (Ed n finish 0 FS). split; [|auto]. apply ES. right. right. exists n. split; [|reflexivity]. apply Ends. split; [apply Ho, X|].
            intros e He Ee. assert (C : existsb (fun e => Nat.eqb (e_from e) n) (gs_edges s) = true); [|congruence]. apply existsb_exists. exists e. split; [exact He|apply Nat.eqb_eq, Ee]. }
    assert (Ac : acyclic (linked g2)). { apply (rank_acyclic _ rank). intros x y (e & He & <- & <-). apply Rank, He. }
    destruct (topological_traversal_correct g2 all start Ac) as (o & To & Po & Oo).
    { intros x y (e & He & <- & <-). rewrite !All. destruct (Rank e He) as (_ & A & B). subst finish. lia. }
    { apply seq_NoDup. }
    { apply All. subst finish. lia. }
    { intros x Hx. apply All in Hx. apply Pre, Hx. }
    unfold make_work_graph. fold g1 in To |- *. change (Gr (g_edges g1 ++ map (fun n => Ed n finish 0 FS) ends) (g_unit g1)) with g2. rewrite To.
    exists (WG g2 start finish o). split; [reflexivity|]. split; [|intros a b (e & He & Eab); exists e; split; [apply ES; auto|exact Eab]].
    assert (Mem : forall n, In n o <-> (n <= finish)%nat). { intros n. rewrite <- All. split; apply Permutation_in; [exact Po|apply Permutation_sym, Po]. }
    assert (NDo : NoDup o) by (eapply Permutation_NoDup; [apply Permutation_sym, Po|apply seq_NoDup]).
    constructor; cbn [wg_nodes wg_start wg_finish wg_graph].
    - exact Po.
    - destruct (first_is_source g2 o start NDo Oo) as (r & R); [apply Mem; subst finish; lia| |].
      { intros x Hx. apply Mem in Hx. destruct (Pre x Hx) as [->|(p & Hp)]; [auto|]. right. exists p. split; [|exact Hp]. destruct Hp as (e & He & <- & _). apply Mem. destruct (Rank e He). subst finish. lia. }
      destruct (last_is_sink g2 o finish NDo Oo) as (q & Q); [apply Mem; lia| |].
      { intros x Hx. apply Mem in Hx. destruct (Suc x Hx) as [->|(p & Hp)]; [auto|]. right. exists p. split; [|exact Hp]. destruct Hp as (e & He & _ & <-). apply Mem. apply Rank, He. }
      destruct q as [|q0 q]; [rewrite R in Q; cbn in Q; injection Q as Q1 Q2; subst finish; lia|]. rewrite R in Q. cbn in Q. injection Q as Q1 Q2. exists q. rewrite R, Q2. reflexivity.
    - exact Oo.
    - constructor.
      + exact NDo.
      + intros e He. rewrite !Mem. destruct (Rank e He) as (_ & A & B). subst finish. lia.
      + intros e He. destruct (Kind e He) as [[T|T] _]; rewrite T; reflexivity.
      + intros x x' y (e & He & T & _). destruct (Kind e He) as [[T'|T'] _]; congruence.
      + intros x y y' (e & He & T & _). destruct (Kind e He) as [[T'|T'] _]; congruence.
      + apply (rank_acyclic _ rank). intros x y (e & He & _ & <- & <-). apply Rank, He.
    - exact Kind.
    - intros n Hn. apply Mem in Hn. remember (rank n) as k eqn:K. revert n Hn K. induction k as [k IHk] using lt_wf_ind. intros n Hn K.
      destruct (Pre n Hn) as [->|(p & Hp)]; [apply rt_refl|]. assert (Hp' := Hp). destruct Hp' as (e & He & A & B). destruct (Rank e He) as (R1 & R2 & R3).
      apply rt_trans with p; [apply (IHk (rank p)); [rewrite K, <- A, <- B; exact R1|rewrite <- A; subst finish; lia|reflexivity]|apply rt_step, Dep, Hp].
    - intros n Hn. apply Mem in Hn. remember (S finish - rank n)%nat as k eqn:K. revert n Hn K. induction k as [k IHk] using lt_wf_ind. intros n Hn K.
      destruct (Suc n Hn) as [->|(c & Hc)]; [apply rt_refl|]. assert (Hc' := Hc). destruct Hc' as (e & He & A & B). destruct (Rank e He) as (R1 & R2 & R3).
      apply rt_trans with c; [apply rt_step, Dep, Hc|]. apply (IHk (S finish - rank c)%nat); [|lia|reflexivity].
      assert (RC : (rank c <= S finish)%nat) by (unfold rank; destruct (Nat.eqb c start); lia). rewrite A, B in R1. clear - R1 RC K. lia.
    - intros n x Hx. cbn [g2 g_unit]. rewrite E2. cbn. unfold unit_of. rewrite Hx. reflexivity.
    - change (length (gs_works s)) with (size s). split; [subst start; lia|]. split; [subst finish start; lia|]. intros n Hn. cbn [g2 g_unit]. rewrite E2. cbn. unfold unit_of.
      rewrite (proj2 (nth_error_None _ _)); [reflexivity|exact Hn].
  Qed.
End FromNodes.
