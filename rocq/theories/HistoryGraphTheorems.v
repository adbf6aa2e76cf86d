(** C101: the graph made from a table of works and historical data. *)
From Coq Require Import ZArith QArith List Bool Ascii String Lia Arith Relations Permutation Sorted.
From Verif Require Import TimeModel MomentumModel GraphModel ScheduleSpec Digraph StableSort TopoModel TopoProofs
  TraverseModel TraverseProofs TraverseTheorems ParserModel ParserProofs ParserGraph ParserTheorems
  HistoryModel HistorySpec HistoryProofs HistoryTheorems.
From Verif Require LoopModel LoopTheorems.
Import ListNotations.
Local Open Scope Z_scope.

(** ** Specification *)
(** The links of the history that are added to those of a work: to works that it does not name
    as predecessors itself. *)
Definition new_links (links : list hlink) (w : work) : list hlink :=
  filter (fun h => str_eqb (hl_work h) (wk_id w) && negb (str_mem (hl_pred h) (map lk_pred (wk_links w)))) links.
(** Their edges. *)
Definition new_edges (names : list str) (keep : str -> str -> bool) (links : list hlink) (w : work) : list edge :=
  map (fun h => Ed (num names (hl_pred h)) (num names (wk_id w)) (Z.quot (Qnum (hl_lag h)) (Zpos (Qden (hl_lag h)))) (hl_type h))
      (filter (fun h => keep (hl_pred h) (wk_id w)) (new_links links w)).
(** Links of the table and of the history together. *)
Definition joint (table : list work) (links : list hlink) (a b : str) : Prop :=
  precedes table a b \/ exists h, In h links /\ hl_pred h = a /\ hl_work h = b.

(** ** Proofs *)
Lemma broken_keeps (L0 : LoopTheorems.links) M L cs L' : LoopTheorems.acyclic L0 -> LoopTheorems.broken L cs L' ->
  (forall u v w, L u v w -> LoopTheorems.joined L0 u v -> M <= LoopTheorems.weight w) ->
  (forall u v w, L u v w -> M <= LoopTheorems.weight w -> LoopTheorems.joined L0 u v) ->
  forall u v w, L u v w -> LoopTheorems.joined L0 u v -> L' u v w.
Proof.
  intros Hac. induction 1 as [L L' H|L c u0 v0 L1 cs L' Hc Hl H1 Hb IH]; intros HU1 HU2 u v w HL HU; [apply H, HL|].
  apply IH.
  - intros x y z Hx. apply H1 in Hx as [Hx _]. apply HU1, Hx.
  - intros x y z Hx. apply H1 in Hx as [Hx _]. eapply HU2, Hx.
  - apply H1. split; [exact HL|]. intros [-> ->]. apply (LoopTheorems.cycle_not_acyclic L0 c); [|exact Hac].
    destruct Hc as [Hc1 Hc2]. destruct Hl as (_ & w0 & Hw0 & Hmin). split; [exact Hc1|].
    intros a b Hab. destruct (Hc2 a b Hab) as (w' & Hw'). apply (HU2 a b w' Hw').
    specialize (Hmin a b w' Hab Hw'). specialize (HU1 _ _ _ Hw0 HU). lia.
  - exact HU.
Qed.

Lemma nodup_sum {A} (f : nat -> A -> bool) (sites : list nat) (l : list A) : NoDup sites ->
  (forall s t x, f s x = true -> f t x = true -> s = t) ->
  (List.length (flat_map (fun s => filter (f s) l) sites) <= List.length l)%nat.
Proof.
  intros Hnd Hf. induction l as [|x l IH].
  - induction Hnd; [reflexivity|]. cbn. assumption.
  - assert (G : (List.length (flat_map (fun s => filter (f s) (x :: l)) sites)
                 <= List.length (flat_map (fun s => filter (f s) l) sites) + 1)%nat
                /\ ((forall s, In s sites -> f s x = false) -> List.length (flat_map (fun s => filter (f s) (x :: l)) sites)
                 = List.length (flat_map (fun s => filter (f s) l) sites))).
    { clear IH. induction Hnd as [|s ss Hs Hnd [IH1 IH2]]; [cbn; split; lia|]. cbn [flat_map]. rewrite !app_length.
      change (filter (f s) (x :: l)) with (if f s x then x :: filter (f s) l else filter (f s) l).
      destruct (f s x) eqn:E.
      - split.
        + rewrite IH2; [cbn; lia|]. intros t Ht. destruct (f t x) eqn:E'; [|reflexivity]. exfalso. apply Hs. rewrite (Hf s t x); auto.
        + intros C. rewrite (C s) in E by (left; reflexivity). discriminate.
      - split; [lia|]. intros C. rewrite IH2; [reflexivity|]. intros t Ht. apply C. right. exact Ht. }
    cbn [List.length]. lia.
Qed.
Lemma common_length history perf n1 n2 : (forall site n, performances history site n (perf site n)) ->
  (List.length (common history perf n1 n2) <= List.length history)%nat.
Proof.
  intros Hp. assert (H := nodup_sum (fun s r => Nat.eqb (h_site r) s && Nat.eqb (h_name r) n1) (nodup Nat.eq_dec (map h_site history)) history
    (NoDup_nodup _ _)). specialize (H ltac:(intros s t x E1 E2; apply andb_true_iff in E1 as [E1 _]; apply andb_true_iff in E2 as [E2 _];
      apply Nat.eqb_eq in E1; apply Nat.eqb_eq in E2; congruence)).
  etransitivity; [|exact H]. unfold common. clear H. induction (nodup Nat.eq_dec (map h_site history)) as [|s l IH]; [reflexivity|].
  cbn [flat_map]. rewrite !app_length. apply Nat.add_le_mono; [|exact IH].
  destruct (Hp s n1) as [P _]. apply Permutation_length in P. rewrite map_length in P. rewrite <- P. clear.
  generalize (perf s n1) (perf s n2). induction l as [|[[a|] [b|]] l IH]; intros [|[[c|] [d|]] m]; cbn; try lia;
    (specialize (IH m); cbn in IH; lia).
Qed.

Definition quad_of (h : hlink) : quad := Quad (hl_pred h) (hl_type h) (Lag (hl_lag h)) (hl_count h).
Definition lists_of (qs : list quad) : lists := (map q_pred qs, map q_type qs, map q_lag qs, map q_count qs).
Lemma append_new_spec works info : NoDup (map hl_pred info) -> (forall h, In h info -> In (hl_pred h) works /\ hl_pred h <> NONE_ELEM) -> forall qs,
  append_new works (map hl_pred info) (map hl_type info) (map (fun h => Lag (hl_lag h)) info) (map hl_count info) (lists_of qs)
  = lists_of (qs ++ map quad_of (filter (fun h => negb (str_mem (hl_pred h) (map q_pred qs))) info)).
Proof.
  induction info as [|h info IH]; intros Hnd Hin qs; [cbn; rewrite app_nil_r; reflexivity|].
  apply NoDup_cons_iff in Hnd as [Hh Hnd]. destruct (Hin h (or_introl eq_refl)) as [H1 H2].
  cbn [map append_new]. unfold lists_of at 1. apply str_mem_true in H1. apply str_eqb_false in H2. rewrite H1, H2. cbn [negb]. rewrite !andb_true_r.
  cbn [filter]. destruct (str_mem (hl_pred h) (map q_pred qs)) eqn:E; cbn [negb].
  - change (map q_pred qs, map q_type qs, map q_lag qs, map q_count qs) with (lists_of qs). apply IH; [exact Hnd|]. intros; apply Hin; right; assumption.
  - replace (map q_pred qs ++ [hl_pred h], map q_type qs ++ [hl_type h], map q_lag qs ++ [Lag (hl_lag h)], map q_count qs ++ [hl_count h])
      with (lists_of (qs ++ [quad_of h])) by (unfold lists_of; rewrite !map_app; reflexivity).
    rewrite IH; [|exact Hnd|intros; apply Hin; right; assumption]. cbn [map]. rewrite <- app_assoc. cbn [app]. do 4 f_equal.
    apply filter_ext_in. intros h' Hh'. f_equal. rewrite map_app.
    destruct (str_mem (hl_pred h') (map q_pred qs)) eqn:E'.
    + apply str_mem_true. apply in_or_app. left. apply str_mem_true. exact E'.
    + apply str_mem_false. intros C. apply in_app_or in C as [C|[C|[]]]; [apply str_mem_false in E'; tauto|].
      apply Hh. cbn in C. rewrite C. apply in_map. exact Hh'.
Qed.
Lemma fill_full qs : fill (lists_of qs) = Ok (lists_of qs).
Proof.
  unfold fill, lists_of. rewrite !map_length, Nat.ltb_irrefl, Nat.sub_diag. cbn [repeat]. rewrite !app_nil_r. reflexivity.
Qed.

Definition to_hrow (value : str -> Q) (links : list hlink) (w : work) : zrow :=
  let z := to_zrow value w in Zrow (z_id z) (z_links z ++ map quad_of (new_links links w)) (z_volume z) (z_reqs z).
Section Join.
  Variable (to_float : str -> res Q) (value : str -> Q).
  Variable (table : list work) (links : list hlink).
  Let names := map wk_id table.
  Hypothesis none_free : ~ In NONE_ELEM names.
  Hypothesis links_nodup : NoDup (map (fun h => (hl_work h, hl_pred h)) links).
  Hypothesis links_in : forall h, In h links -> In (hl_work h) names /\ In (hl_pred h) names.
  Lemma preds_nodup x : NoDup (map hl_pred (filter (fun h => str_eqb (hl_work h) x) links)).
  Proof.
    clear -links_nodup. induction links as [|h l IH]; [constructor|]. cbn [map] in links_nodup. apply NoDup_cons_iff in links_nodup as [Hh Hnd].
    cbn [filter]. destruct (str_eqb (hl_work h) x) eqn:E; [|auto]. cbn [map]. constructor; [|auto].
    intros C. apply Hh. apply in_map_iff in C as (h' & E' & Hh'). apply filter_In in Hh' as [Hh' E'']. apply in_map_iff. exists h'.
    split; [|exact Hh']. apply str_eqb_true in E, E''. congruence.
  Qed.
  Lemma connect_spec w : writable to_float value w ->
    exists r, preprocess to_float (written w) = Ok r /\ p_id r = wk_id w /\
      connect false false names (filter (fun h => str_eqb (hl_work h) (p_id r)) links) r = Ok (unz (to_hrow value links w)).
  Proof.
    intros Hw. destruct (read_row to_float value w Hw) as (r & Er & En). exists r. split; [exact Er|].
    assert (Ei : p_id r = wk_id w) by (apply (f_equal p_id) in En; exact En). split; [exact Ei|].
    assert (E1 : p_preds r = map q_pred (z_links (to_zrow value w))) by exact (f_equal p_preds En).
    assert (E2 : p_types r = map q_type (z_links (to_zrow value w))) by exact (f_equal p_types En).
    assert (E3 : p_lags r = map q_lag (z_links (to_zrow value w))) by exact (f_equal p_lags En).
    assert (E4 : repeat INF (List.length (p_preds r)) = map q_count (z_links (to_zrow value w))) by exact (f_equal p_counts En).
    assert (E5 : p_volume r = wk_volume w) by exact (f_equal p_volume En).
    assert (E6 : p_reqs r = wk_reqs w) by exact (f_equal p_reqs En). rewrite Ei.
    set (info := filter (fun h => str_eqb (hl_work h) (wk_id w)) links).
    assert (Hinfo : forall h, In h info -> In (hl_pred h) names /\ hl_pred h <> NONE_ELEM).
    { intros h Hh. apply filter_In in Hh as [Hh _]. destruct (links_in h Hh) as [_ H]. split; [exact H|]. intros C. apply none_free. rewrite <- C. exact H. }
    unfold connect. destruct (history_lists info) as [[[ids types] lags] counts] eqn:Eh. cbn [negb bind].
    assert (Ele : List.length (p_lags r) = List.length (p_preds r)) by (rewrite E1, E3, !map_length; reflexivity).
    rewrite Ele, E4, E1, E2, E3. fold (lists_of (z_links (to_zrow value w))).
    assert (Ea : append_new names ids types lags counts (lists_of (z_links (to_zrow value w)))
                 = lists_of (z_links (to_hrow value links w))).
    { assert (Enew : map quad_of (filter (fun h => negb (str_mem (hl_pred h) (map q_pred (z_links (to_zrow value w))))) info)
                   = map quad_of (new_links links w)).
      { f_equal. unfold new_links. transitivity (filter (fun h => negb (str_mem (hl_pred h) (map lk_pred (wk_links w)))) info).
        - apply filter_ext_in. intros h Hh. f_equal. unfold to_zrow. cbn [z_links]. destruct (wk_links w) as [|l ls] eqn:El.
          + cbn [map q_pred]. apply str_mem_false. intros [C|[]]. symmetry in C. destruct (Hinfo h Hh). tauto.
          + rewrite map_map. reflexivity.
        - unfold info. clear. induction links as [|h l IH]; [reflexivity|]. cbn [filter]. destruct (str_eqb (hl_work h) (wk_id w)); cbn [andb filter]; [|exact IH].
          destruct (negb _); [rewrite IH|]; auto. }
      unfold to_hrow. cbn [z_links]. rewrite <- Enew. destruct info as [|h0 info0] eqn:Einfo.
      - cbn [history_lists] in Eh. injection Eh as <- <- <- <-. cbn [map filter]. rewrite app_nil_r.
        cbn [append_new]. unfold lists_of at 1. rewrite str_eqb_refl. cbn [negb]. rewrite andb_false_r, andb_false_l. reflexivity.
      - rewrite <- Einfo in *. assert (E : history_lists info = (map hl_pred info, map hl_type info, map (fun h => Lag (hl_lag h)) info, map hl_count info))
          by (rewrite Einfo; reflexivity). rewrite Eh in E. injection E as -> -> -> ->. apply append_new_spec; [apply preds_nodup|exact Hinfo]. }
    cbv zeta. rewrite Ea. cbn [bind]. rewrite fill_full. cbn [bind]. unfold lists_of, unz. f_equal. rewrite Ei, E5, E6. reflexivity.
  Qed.
  Lemma rows_ok : (forall w, In w table -> writable to_float value w) ->
    exists rows, map_res (preprocess to_float) (map written table) = Ok rows /\ map p_id rows = names /\
      map_res (fun r => connect false false names (filter (fun h => str_eqb (hl_work h) (p_id r)) links) r) rows
      = Ok (map unz (map (to_hrow value links) table)).
  Proof.
    intros Hw. assert (C : forall w, In w table -> exists r, preprocess to_float (written w) = Ok r /\ p_id r = wk_id w /\
      connect false false names (filter (fun h => str_eqb (hl_work h) (p_id r)) links) r = Ok (unz (to_hrow value links w)))
      by (intros; apply connect_spec; auto).
    assert (G : forall t, incl t table -> exists rows, map_res (preprocess to_float) (map written t) = Ok rows /\ map p_id rows = map wk_id t /\
      map_res (fun r => connect false false names (filter (fun h => str_eqb (hl_work h) (p_id r)) links) r) rows
      = Ok (map unz (map (to_hrow value links) t))); [|apply G, incl_refl].
    induction t as [|x t IH]; intros Hi; [exists []; auto|].
    destruct IH as (rows & E1 & E2 & E3); [intros y Hy; apply Hi; right; exact Hy|].
    destruct (C x (Hi x (or_introl eq_refl))) as (r & R1 & R2 & R3). exists (r :: rows). cbn [map map_res]. rewrite R1. cbn [bind]. rewrite E1. cbn [bind].
    split; [reflexivity|]. rewrite R2, E2. split; [reflexivity|]. rewrite R2 in R3. rewrite R3. cbn [bind]. rewrite E3. reflexivity.
  Qed.
  Hypothesis distinct : NoDup names.
  Lemma follows_joint a b : follows (map (to_hrow value links) table) a b <-> joint table links a b.
  Proof.
    unfold joint. rewrite <- (follows_precedes value table a b none_free). unfold follows. rewrite !map_map. cbn [to_hrow to_zrow z_id]. fold names. split.
    - intros (Ha & z & q & Hz & Hq & Eb & Ea). apply in_map_iff in Hz as (w & <- & Hw). cbn [to_hrow z_links z_id] in Hq, Eb.
      apply in_app_or in Hq as [Hq|Hq].
      + left. split; [exact Ha|]. exists (to_zrow value w), q. split; [apply in_map, Hw|]. auto.
      + right. apply in_map_iff in Hq as (h & <- & Hh). apply filter_In in Hh as [Hh E]. apply andb_true_iff in E as [E _]. apply str_eqb_true in E.
        exists h. split; [exact Hh|]. split; [exact Ea|]. rewrite E. exact Eb.
    - intros [(Ha & z & q & Hz & Hq & Eb & Ea)|(h & Hh & Ea & Eb)].
      + split; [exact Ha|]. apply in_map_iff in Hz as (w & <- & Hw). exists (to_hrow value links w), q. split; [apply in_map, Hw|].
        split; [cbn [to_hrow z_links]; apply in_or_app; left; exact Hq|]. auto.
      + destruct (links_in h Hh) as [H1 H2]. rewrite Ea in H2. split; [exact H2|]. apply in_map_iff in H1 as (w & E1 & Hw).
        destruct (str_mem (hl_pred h) (map lk_pred (wk_links w))) eqn:E.
        * apply str_mem_true, in_map_iff in E as (l & El & Hl). exists (to_hrow value links w), (Quad (lk_pred l) (lk_type l) (Lag (value (lk_lag l))) INF).
          split; [apply in_map, Hw|]. split; [|cbn [to_hrow z_id to_zrow q_pred]; split; congruence]. cbn [to_hrow z_links to_zrow]. apply in_or_app. left.
          destruct (wk_links w) as [|l0 ls] eqn:Ew; [destruct Hl|]. apply in_map_iff. exists l. auto.
        * exists (to_hrow value links w), (quad_of h). split; [apply in_map, Hw|]. split; [|cbn [to_hrow z_id to_zrow q_pred quad_of]; split; congruence].
          cbn [to_hrow z_links]. apply in_or_app. right. apply in_map, filter_In. split; [exact Hh|]. rewrite E. cbn [negb]. rewrite andb_true_r.
          apply str_eqb_true. congruence.
  Qed.
  Hypothesis counts_small : forall h, In h links -> hl_count h < INF.
  Lemma own_links_kept (keep : str -> str -> bool) cs :
    let zs := map (to_hrow value links) table in
    let zs' := map (fun z => with_links z (fun q => keep (q_pred q) (z_id z))) zs in
    LoopTheorems.broken (LoopTheorems.row_links (map (fun z => loop_row (map z_id zs) (unz z)) zs)) cs
                        (LoopTheorems.row_links (map (fun z => loop_row (map z_id zs) (unz z)) zs')) ->
    (forall a, ~ clos_trans str (precedes table) a a) -> forall a b, precedes table a b -> keep a b = true.
  Proof.
    intros zs zs' Hb Hac a b Hab.
    assert (Ez : map z_id zs = names) by (unfold zs, names; rewrite map_map; reflexivity).
    assert (Ez' : map z_id zs' = names) by (unfold zs'; rewrite map_map; exact Ez).
    set (zs0 := map (to_zrow value) table). assert (Ez0 : map z_id zs0 = names) by (unfold zs0, names; rewrite map_map; reflexivity).
    assert (Hb' : LoopTheorems.broken (LoopTheorems.row_links (map (fun z => loop_row (map z_id zs) (unz z)) zs)) cs
                        (LoopTheorems.row_links (map (fun z => loop_row (map z_id zs') (unz z)) zs'))) by (rewrite Ez'; rewrite Ez in Hb |- *; exact Hb).
    clear Hb.
    set (L0 := LoopTheorems.row_links (map (fun z => loop_row (map z_id zs0) (unz z)) zs0)).
    assert (Hac0 : LoopTheorems.acyclic L0).
    { unfold L0. apply acyclic_names; [rewrite Ez0; exact none_free|]. intros c Hc. apply (Hac c).
      eapply clos_trans_iff; [|exact Hc]. intros. apply follows_precedes, none_free. }
    assert (Hab' := Hab). destruct Hab' as (Ha & w & l & Hw & Hl & Eb & Ea).
    assert (Hne : a <> NONE_ELEM) by (intros ->; exact (none_free Ha)).
    set (q := Quad (lk_pred l) (lk_type l) (Lag (value (lk_lag l))) INF).
    assert (Hq : In q (z_links (to_zrow value w))).
    { cbn [to_zrow z_links]. destruct (wk_links w) as [|l0 ls] eqn:Ew; [destruct Hl|]. apply in_map_iff. exists l. auto. }
    assert (HL' : LoopTheorems.row_links (map (fun z => loop_row (map z_id zs') (unz z)) zs') (num names a) (num names b) (Some INF)).
    { apply (broken_keeps L0 INF _ cs _ Hac0 Hb').
      - intros u v w0 H (w1 & H0). apply row_links_spec in H as (z & q1 & Hz & Hq1 & N1 & -> & -> & ->). unfold L0 in H0.
        apply row_links_spec in H0 as (z2 & q2 & Hz2 & Hq2 & N2 & E1 & E2 & ->). rewrite Ez, Ez0 in *. cbn [LoopTheorems.weight].
        apply in_map_iff in Hz as (x & <- & Hx). apply in_map_iff in Hz2 as (x2 & <- & Hx2). cbn [to_hrow z_links z_id to_zrow] in Hq1, E1, E2.
        apply num_inj in E2; [|apply in_map, Hx].
        assert (x = x2).
        { clear -distinct Hx Hx2 E2. unfold names in distinct. induction table as [|y t IH]; [destruct Hx|]. cbn in distinct. apply NoDup_cons_iff in distinct as [Hy Hnd].
          destruct Hx as [->|Hx], Hx2 as [->|Hx2]; auto; exfalso; apply Hy; [rewrite E2|rewrite <- E2]; apply in_map; assumption. }
        subst x2. apply in_app_or in Hq1 as [Hq1|Hq1].
        + destruct (wk_links x) as [|l0 ls] eqn:Ew; [destruct Hq1 as [<-|[]]; cbn [q_count]; lia|].
          apply in_map_iff in Hq1 as (l1 & <- & _). cbn [q_count]. lia.
        + exfalso. apply in_map_iff in Hq1 as (h & <- & Hh). apply filter_In in Hh as [Hh E]. apply andb_true_iff in E as [_ E].
          apply negb_true_iff, str_mem_false in E. apply E. cbn [quad_of q_pred] in E1.
          apply num_inj in E1; [|apply links_in, Hh]. cbn [to_zrow z_links] in Hq2.
          destruct (wk_links x) as [|l0 ls] eqn:Ew; [destruct Hq2 as [<-|[]]; exfalso; apply N2; reflexivity|].
          apply in_map_iff in Hq2 as (l1 & <- & Hl1). cbn [q_pred] in E1. rewrite E1. apply in_map. exact Hl1.
      - intros u v w0 H Hw0. apply row_links_spec in H as (z & q1 & Hz & Hq1 & N1 & -> & -> & ->). rewrite Ez.
        apply in_map_iff in Hz as (x & <- & Hx). cbn [to_hrow z_links] in Hq1. apply in_app_or in Hq1 as [Hq1|Hq1].
        + exists (Some (q_count q1)). unfold L0. apply row_links_spec. exists (to_zrow value x), q1. rewrite Ez0.
          split; [apply in_map, Hx|]. repeat (split; [assumption || reflexivity|]). reflexivity.
        + exfalso. apply in_map_iff in Hq1 as (h & <- & Hh). apply filter_In in Hh as [Hh _]. specialize (counts_small h Hh).
          cbn [LoopTheorems.weight q_count quad_of] in Hw0. lia.
      - apply row_links_spec. rewrite Ez. exists (to_hrow value links w), q. split; [apply in_map, Hw|].
        split; [cbn [to_hrow z_links]; apply in_or_app; left; exact Hq|]. cbn [q_pred q q_count to_hrow z_id to_zrow]. rewrite Ea, Eb. auto.
      - exists (Some INF). unfold L0. apply row_links_spec. rewrite Ez0. exists (to_zrow value w), q. split; [apply in_map, Hw|].
        split; [exact Hq|]. cbn [q_pred q q_count z_id to_zrow]. rewrite Ea, Eb. auto. }
    apply row_links_spec in HL' as (z & q1 & Hz & Hq1 & _ & E1 & E2 & _). rewrite Ez' in E1, E2.
    apply num_inj in E1; [|exact Ha]. apply num_inj in E2; [|rewrite <- Eb; apply in_map, Hw].
    unfold zs' in Hz. apply in_map_iff in Hz as (z0 & <- & Hz0). cbn [with_links z_links z_id] in Hq1, E2. apply filter_In in Hq1 as [_ Hk].
    rewrite E1, E2. exact Hk.
  Qed.
End Join.

(** ** C101 *)
(** A table of works with historical data whose links are added (all_connections and
    change_connections_info off). The graph has exactly one edge for each link of the table to
    a work of the table, with its type and lag, and one for each link of the history between
    works that the table does not join that way, but for links taken away to break loops.
    Those were on loops. If the links of the table alone have no loop, none of them is taken
    away, whatever the history says. Nodes, start, finish and requirements are as without
    history. *)
Theorem history_respects_table
  (history : list hrow) (name_of : str -> nat) (perf : nat -> nat -> list days) (to_float : str -> res Q) (value : str -> Q)
  (topological_sort : list nat -> list (nat * nat) -> option (list nat)) (set_order : list nat -> list nat)
  (kinds : list nat) (find_work_resources : str -> Z -> list req) (start finish : nat) (table : list work) :
  (forall site n, performances history site n (perf site n)) -> Z.of_nat (List.length history) < 2 ^ 63 - 1 ->
  topological_sort_ok topological_sort -> (forall l, Permutation (set_order l) l) ->
  table <> [] -> NoDup (map wk_id table) -> ~ In (lit "-1") (map wk_id table) ->
  (forall w, In w table -> writable to_float value w /\ volumes_given kinds w) ->
  (List.length table <= start)%nat -> (List.length table <= finish)%nat -> start <> finish ->
  let names := map wk_id table in
  exists links keep w own es ef middle,
    get_all_seq_statistic history name_of names = Ok links
    /\ parse_with_history history name_of to_float topological_sort set_order kinds find_work_resources start finish false false
         (map written table) = Ok (Ends w)
    /\ wg_start w = start /\ wg_finish w = finish
    /\ wg_nodes w = start :: middle ++ [finish] /\ Permutation middle (map (num names) names)
    /\ topological (linked (wg_graph w)) (wg_nodes w)
    /\ g_edges (wg_graph w) = own ++ es ++ ef
    /\ Permutation own (flat_map (fun x => edges_of value names keep x ++ new_edges names keep links x) table)
    /\ (forall a b, keep a b = false -> joint table links a b -> clos_refl_trans str (joint table links) b a)
    /\ ((forall a, ~ clos_trans str (joint table links) a a) -> forall a b, joint table links a b -> keep a b = true)
    /\ ((forall a, ~ clos_trans str (precedes table) a a) -> forall a b, precedes table a b -> keep a b = true)
    /\ (forall e, In e es <-> exists x, In x names /\ e = Ed start (num names x) 0 FS
          /\ forall e', In e' own -> is_dependency (e_type e') = true -> e_to e' <> num names x)
    /\ (forall e, In e ef <-> exists x, In x names /\ e = Ed (num names x) finish 0 FS
          /\ forall e', In e' own -> is_dependency (e_type e') = true -> e_from e' <> num names x)
    /\ (forall x, In x table -> let u := g_unit (wg_graph w) (num names (wk_id x)) in
          u_volume u = wk_volume x /\ (u_service u = true <-> u_reqs u = [])
          /\ reqs_given kinds x (u_reqs u)
          /\ (wk_reqs x = None -> u_reqs u = find_work_resources (wk_id x) (wk_volume x))).
Proof.
  intros Hperf Hlen Hsort Hset Hne Hnd Hno Hw Hs Hf Hsf names.
  destruct (history_links history name_of perf Hperf names Hnd) as (links & El & Lnd & Lin & _).
  assert (Lin' : forall h, In h links -> In (hl_work h) names /\ In (hl_pred h) names) by (intros h Hh; destruct (Lin h Hh) as (A & B & _); auto).
  assert (Lc : forall h, In h links -> hl_count h < INF).
  { intros h Hh. destruct (Lin h Hh) as (_ & _ & _ & (_ & Ec & _) & _). rewrite Ec.
    assert (H := common_length history perf (name_of (hl_pred h)) (name_of (hl_work h)) Hperf). unfold INF. lia. }
  set (zs := map (to_hrow value links) table).
  assert (Ez : map z_id zs = names) by (unfold zs, names; rewrite map_map; reflexivity).
  destruct (break_loops_spec zs) as (keep & Eb & Hfree & (cs & Hbroken) & Hgone & Hall); [rewrite Ez; exact Hnd|rewrite Ez; exact Hno|].
  assert (Hown := own_links_kept to_float value table links Hno Lin' Hnd Lc keep cs Hbroken). clear Hbroken.
  set (zs' := map (fun z => with_links z (fun q => keep (q_pred q) (z_id z))) zs) in *.
  assert (Ez' : map z_id zs' = names) by (unfold zs'; rewrite map_map; cbn; exact Ez).
  assert (Elen : List.length zs' = List.length table) by (unfold zs', zs; rewrite !map_length; reflexivity).
  assert (Hreqs : forall x, In x table -> exists l, reqs_of kinds find_work_resources (unz (to_hrow value links x)) = Ok l /\ reqs_given kinds x l
            /\ (wk_reqs x = None -> l = find_work_resources (wk_id x) (wk_volume x))).
  { intros x Hx. destruct (Hw x Hx) as [_ Hv]. unfold reqs_of, reqs_given, volumes_given in *. cbn [unz to_hrow to_zrow p_reqs p_id p_volume z_reqs z_id z_volume].
    destruct (wk_reqs x) as [[[least greatest] volume]|].
    - destruct (given_reqs_spec least greatest volume kinds Hv) as (l & E & H). exists l. split; [exact E|]. split; [exact H|discriminate].
    - exists (find_work_resources (wk_id x) (wk_volume x)). auto. }
  destruct (work_graph_spec topological_sort set_order kinds find_work_resources start finish Hsort Hset zs') as
    (w & own & es & ef & middle & W0 & W1 & W2 & W3 & W4 & W5 & W6 & W7 & W8 & W9 & W10 & W11 & W12 & W13).
  { rewrite Ez'. exact Hnd. }
  { intros C. rewrite C in Elen. destruct table; [congruence|discriminate]. }
  { exact Hfree. }
  { intros z Hz. unfold zs', zs in Hz. rewrite map_map in Hz. apply in_map_iff in Hz as (x & <- & Hx).
    destruct (Hreqs x Hx) as (l & E & _). exists l. exact E. }
  { rewrite Elen. exact Hs. }
  { rewrite Elen. exact Hf. }
  { exact Hsf. }
  rewrite Ez', Elen in *.
  assert (Hlt : forall k, (k < List.length table)%nat <-> exists x, In x names /\ k = num names x).
  { assert (L : List.length names = List.length table) by (unfold names; apply map_length).
    intros k. split.
    - intros Hk. exists (nth k names []). rewrite <- L in Hk. split; [apply nth_In; exact Hk|symmetry; apply num_nth; assumption].
    - intros (x & Hx & ->). rewrite <- L. apply num_lt, Hx. }
  assert (HJ := follows_joint value table links Hno Lin'). fold zs in HJ.
  exists links, keep, w, own, es, ef, middle.
  split; [exact El|]. split; [|split; [exact W1|split; [exact W2|split; [exact W3|split; [|split; [exact W5|split; [exact W6|]]]]]]].
  - unfold parse_with_history, set_connections_info. cbn [andb negb].
    destruct (rows_ok to_float value table links Hno Lnd Lin') as (rows & R1 & R2 & R3); [intros x Hx; apply Hw, Hx|].
    rewrite R1. cbn [bind]. rewrite R2. fold names. rewrite El. cbn [bind]. fold names in R3. rewrite R3. cbn [bind]. fold zs. rewrite Eb. cbn [bind]. exact W0.
  - rewrite W4. unfold names. rewrite num_names by exact Hnd. rewrite map_length. reflexivity.
  - split; [|split; [|split; [|split; [exact Hown|split; [|split]]]]].
    + rewrite W7. unfold zs', zs. rewrite map_map, flat_map_concat_map, flat_map_concat_map, map_map.
      match goal with |- Permutation (List.concat ?a) (List.concat ?b) => assert (E : a = b); [|rewrite E; apply Permutation_refl] end.
      apply map_ext_in. intros x Hx. unfold row_edges, with_links, to_hrow. cbn [z_id z_links]. rewrite !filter_app, map_app. f_equal.
      * unfold edges_of, to_zrow. cbn [z_id z_links]. destruct (wk_links x) as [|l ls] eqn:Elk.
        -- cbn [filter q_pred]. destruct (keep NONE_ELEM (wk_id x)); [|reflexivity]. cbn [filter q_pred].
           assert (str_mem NONE_ELEM names = false) as -> by (apply str_mem_false; exact Hno). reflexivity.
        -- generalize (l :: ls). clear. intros ls. induction ls as [|l ls IH]; [reflexivity|]. cbn [map filter q_pred].
           destruct (keep (lk_pred l) (wk_id x)); cbn [filter q_pred]; rewrite ?andb_true_r, ?andb_false_r;
             [destruct (str_mem (lk_pred l) names)|]; cbn [map]; rewrite ?IH; reflexivity.
      * unfold new_edges. cbn [to_zrow z_id].
        assert (Hin : forall h, In h (new_links links x) -> str_mem (hl_pred h) names = true).
        { intros h Hh. apply filter_In in Hh as [Hh _]. apply str_mem_true. apply Lin', Hh. }
        revert Hin. generalize (new_links links x). clear. intros ls. induction ls as [|h ls IH]; intros Hin; [reflexivity|]. cbn [map filter quad_of q_pred].
        specialize (IH (fun h' Hh' => Hin h' (or_intror Hh'))). destruct (keep (hl_pred h) (wk_id x)); [|exact IH].
        cbn [filter quad_of q_pred]. rewrite (Hin h (or_introl eq_refl)). cbn [map]. rewrite IH. reflexivity.
    + intros a b Hk Hp. assert (Hp' := Hp). apply HJ in Hp' as (_ & z & q & Hz & Hq & <- & <-).
      destruct (Hgone z q Hz Hq Hk) as [_ P]. eapply clos_rt_iff; [|exact P]. intros. apply HJ.
    + intros Hac a b Hp. assert (Hfr : loop_free zs).
      { intros c Hc. apply (Hac c). eapply clos_trans_iff; [|exact Hc]. intros. apply HJ. }
      specialize (Hall Hfr). apply HJ in Hp as (_ & z & q & Hz & Hq & <- & <-).
      destruct (keep (q_pred q) (z_id z)) eqn:Ek; [reflexivity|exfalso].
      unfold zs' in Hall. rewrite <- (map_id zs) in Hall at 2. apply map_ext_in_iff with (a := z) in Hall; [|exact Hz].
      apply (f_equal z_links) in Hall. cbn [with_links z_links] in Hall. rewrite <- Hall in Hq. apply filter_In in Hq as [_ Hq]. congruence.
    + intros e. rewrite W8. split.
      * intros (k & Hk & -> & H). apply Hlt in Hk as (x & Hx & ->). exists x. auto.
      * intros (x & Hx & -> & H). exists (num names x). split; [apply Hlt; exists x; auto|auto].
    + intros e. rewrite W9. split.
      * intros (k & Hk & -> & H). apply Hlt in Hk as (x & Hx & ->). exists x. auto.
      * intros (x & Hx & -> & H). exists (num names x). split; [apply Hlt; exists x; auto|auto].
    + intros x Hx. cbv zeta. set (z := with_links (to_hrow value links x) (fun q => keep (q_pred q) (z_id (to_hrow value links x)))).
      assert (Hz : In z zs') by (unfold zs', zs; rewrite map_map; apply in_map_iff; exists x; auto).
      change (wk_id x) with (z_id z). rewrite (W10 z Hz). unfold the_unit. cbn [u_volume u_service u_reqs].
      destruct (Hreqs x Hx) as (l & E & H1 & H2). unfold the_reqs.
      change (reqs_of kinds find_work_resources (unz z)) with (reqs_of kinds find_work_resources (unz (to_hrow value links x))). rewrite E.
      split; [reflexivity|]. split; [destruct l; split; congruence|]. split; [exact H1|exact H2].
Qed.
Print Assumptions history_respects_table.

(** ** Concrete cases *)
Definition ex_works : list work :=
  [Wk (lit "a") [Lk (lit "b") FS (lit "2")] 4 None; Wk (lit "b") [] 5 None; Wk (lit "c") [] 3 None].
(** Three rows for the works 1 to 3 of a site. *)
Definition three (site : nat) (s1 f1 s2 f2 s3 f3 : Z) : list hrow :=
  both site s1 f1 s2 f2 ++ [Hrow site 3 (Some s3) (Some f3)].
Definition ex_records : list hrow := three 5 0 8 8 12 10 20 ++ three 6 0 8 9 12 30 40.
Definition ex_recorded (site n : nat) : list days := map days_of (performed ex_records site n).
Definition ex_parse_history (records : list hrow) (all change : bool) (table : list cells) :=
  parse_with_history records ex_name one_digit kahn_sort (fun l => rev l) [7%nat] no_resources 8 9 all change table.
(** The table has b before a; the history has a before b and both before c. The link of the
    table stays, that of the history against it goes; the links to c are added. *)
Example history_respects_table_ex :
  (forall site n, performances ex_records site n (ex_recorded site n)) /\ Z.of_nat (List.length ex_records) < 2 ^ 63 - 1
  /\ NoDup (map wk_id ex_works) /\ ~ In (lit "-1") (map wk_id ex_works)
  /\ (forall w, In w ex_works -> writable one_digit one_value w /\ volumes_given [7%nat] w)
  /\ (forall a, ~ clos_trans str (precedes ex_works) a a)
  /\ get_all_seq_statistic ex_records ex_name (map wk_id ex_works)
     = Ok [Hlink (lit "b") (lit "a") FS 0 2; Hlink (lit "c") (lit "a") FS 0 2; Hlink (lit "c") (lit "b") FFS (50 # 100) 2]
  /\ match ex_parse_history ex_records false false (map written ex_works) with
     | Ok (Ends w) => wg_nodes w = [8; 1; 0; 2; 9]%nat
                      /\ g_edges (wg_graph w) = [Ed 1 0 2 FS; Ed 0 2 0 FS; Ed 1 2 0 FFS; Ed 8 1 0 FS; Ed 2 9 0 FS]%nat
     | _ => False
     end.
Proof.
  split; [intros; apply performed_performances|]. split; [vm_compute; reflexivity|].
  split; [vm_compute; repeat constructor; cbn; intuition discriminate|]. split; [vm_compute; intuition discriminate|]. split; [|split; [|split]].
  - intros w Hw. split; [|destruct Hw as [<-|[<-|[<-|[]]]]; exact I]. intros l Hl.
    destruct Hw as [<-|[<-|[<-|[]]]]; cbn in Hl; [|destruct Hl..]. destruct Hl as [<-|[]]. cbn [lk_pred lk_lag].
    split; [|split; [|split]].
    + unfold element, no_comma. cbn. intuition discriminate.
    + left. reflexivity.
    + unfold element, no_comma. cbn. intuition discriminate.
    + reflexivity.
  - intros x Hx. assert (H : forall y z, clos_trans str (precedes ex_works) y z -> y = lit "b" /\ z = lit "a").
    { intros y z P. induction P as [y z (Hy & w & l & Hw & Hl & E1 & E2)|y z t _ [I1 I2] _ [I3 I4]].
      - destruct Hw as [<-|[<-|[<-|[]]]]; cbn in Hl; [|destruct Hl..]. destruct Hl as [<-|[]]. cbn in E1, E2. auto.
      - rewrite I2 in I3. discriminate. }
    destruct (H x x Hx) as [-> C]. discriminate.
  - vm_compute. reflexivity.
  - vm_compute. auto.
Qed.

(** Finding: with all_connections and change_connections_info on, types and lags of the history
    are written to the links of the table in the order of the history, not of the links: here
    the history has b after a with a lag of a half, c follows both at once; the table of c names
    b and a in this order, and the link to b gets the type and lag of that to a. *)
Theorem history_info_misplaced :
  let row preds := Prow (lit "c") preds [FS; FS] [Lag 0; Lag 0] [] 1 None in
  let info := [Hlink (lit "c") (lit "a") FS 0 2; Hlink (lit "c") (lit "b") FFS (1 # 2) 2] in
  let connected preds := connect true true [lit "a"; lit "b"; lit "c"] info (row preds) in
  connected [lit "a"; lit "b"] = Ok (Prow (lit "c") [lit "a"; lit "b"] [FS; FFS] [Lag 0; Lag (1 # 2)] [2; 2] 1 None)
  /\ connected [lit "b"; lit "a"] = Ok (Prow (lit "c") [lit "b"; lit "a"] [FS; FFS] [Lag 0; Lag (1 # 2)] [2; 2] 1 None).
Proof. vm_compute. auto. Qed.
Print Assumptions history_info_misplaced.
(** Finding: a row with more types than predecessors makes the reading with history go on for
    ever, if nothing is known of its work. *)
Theorem extra_type_endless (works : list str) (r : prow) :
  (List.length (p_preds r) < List.length (p_types r))%nat -> connect false false works [] r = Err Endless.
Proof.
  intros H. unfold connect. cbn [history_lists negb bind append_new]. rewrite str_eqb_refl. cbn [negb].
  rewrite andb_false_r, andb_false_l. unfold fill. apply Nat.ltb_lt in H. rewrite H. reflexivity.
Qed.
Print Assumptions extra_type_endless.
Example extra_type_endless_ex :
  ex_parse_history [] false false [Cells (lit "a") None None None 1 None;
    Cells (lit "b") (Some (lit "a")) (Some (lit "FS,FS")) (Some (lit "0")) 1 None] = Err Endless.
Proof. vm_compute. reflexivity. Qed.
(** Finding: lags from the history are shares; in the graph they are cut to integers, so that
    all but the full share vanish. *)
Theorem history_lags_vanish (names : list str) (keep : str -> str -> bool) (links : list hlink) (w : work) (e : edge) :
  (forall h, In h links -> (0 <= hl_lag h <= 1)%Q) -> In e (new_edges names keep links w) ->
  e_lag e = 0 \/ (e_lag e = 1 /\ exists h, In h links /\ (hl_lag h == 1)%Q).
Proof.
  intros Hl He. apply in_map_iff in He as (h & <- & Hh). apply filter_In in Hh as [Hh _]. apply filter_In in Hh as [Hh _]. cbn [e_lag].
  destruct (Hl h Hh) as [H0 H1]. destruct (hl_lag h) as [n d] eqn:E. unfold Qle in *. cbn [Qnum Qden] in *.
  destruct (Z.eq_dec n (Zpos d)) as [->|Hn].
  - right. rewrite Z.quot_same by lia. split; [reflexivity|]. exists h. split; [exact Hh|]. rewrite E. unfold Qeq. cbn. lia.
  - left. apply Z.quot_small. lia.
Qed.
Print Assumptions history_lags_vanish.
