(** Proofs for C113. *)
From Coq Require Import String ZArith List Bool Permutation Ascii Decimal DecimalString DecimalNat Arith Lia.
From Verif Require Import TimeModel MomentumModel GraphModel TopoModel TraverseModel Digraph TraverseProofs TraverseTheorems GraphEditSpec ExtendModel ExtendSpec.
Import ListNotations.
Local Open Scope string_scope.
Local Open Scope list_scope.

(** ** Strings *)
Fixpoint digits (s : string) : Prop := match s with EmptyString => True | String c r => is_digit c = true /\ digits r end.
Lemma append_assoc a b c : append (append a b) c = append a (append b c).
Proof. induction a as [|x a IH]; [reflexivity|]. cbn. rewrite IH. reflexivity. Qed.
Lemma digits_app a b : digits (append a b) <-> digits a /\ digits b.
Proof. induction a as [|x a IH]; cbn; [tauto|]. rewrite IH. tauto. Qed.
Lemma split_digits a b x y d e : append a (String x d) = append b (String y e) -> digits d -> digits e -> is_digit x = false -> is_digit y = false ->
  a = b /\ x = y /\ d = e.
Proof.
  revert b. induction a as [|c a IH]; intros [|c' b] E D D' X Y; cbn in E; injection E as E1 E.
  - auto.
  - exfalso. rewrite E in D. apply digits_app in D as [_ [D _]]. congruence.
  - exfalso. rewrite <- E in D'. apply digits_app in D' as [_ [D' _]]. congruence.
  - destruct (IH b E D D' X Y) as (-> & -> & ->). subst. auto.
Qed.
Lemma split_last a b c d : append a (String c "") = append b (String d "") -> a = b /\ c = d.
Proof.
  revert b. induction a as [|x a IH]; intros [|y b] E; cbn in E.
  - injection E as E. auto.
  - injection E as E1 E. destruct b; discriminate.
  - injection E as E1 E. destruct a; discriminate.
  - injection E as E1 E. destruct (IH b E) as (-> & ->). subst. auto.
Qed.
Lemma uint_digits d : digits (NilEmpty.string_of_uint d).
Proof. induction d; cbn; auto. Qed.
Lemma str_digits i : digits (str i).
Proof. apply uint_digits. Qed.
Lemma str_inj i j : str i = str j -> i = j.
Proof.
  unfold str. intros E. apply Unsigned.to_uint_inj. assert (K : NilEmpty.uint_of_string (NilEmpty.string_of_uint (Nat.to_uint i)) = NilEmpty.uint_of_string (NilEmpty.string_of_uint (Nat.to_uint j))) by (rewrite E; reflexivity).
  rewrite !NilEmpty.usu in K. congruence.
Qed.
Lemma suffix_inj q a b s t : is_suffix q s -> is_suffix q t -> append a s = append b t -> a = b /\ s = t.
Proof.
  assert (A : forall k d, append k (append " #" d) = append (append k " ") (String "#" d)) by (intros k d; rewrite append_assoc; reflexivity).
  intros [->|(i & _ & ->)] [->|(j & _ & ->)] E.
  - destruct (split_digits a b "_" "_" "0" "0" E) as (-> & _); repeat split; reflexivity || trivial.
  - rewrite A in E. destruct (split_digits a _ "_" "#" "0" (str j) E) as (_ & K & _); try reflexivity; [repeat split|apply str_digits|discriminate].
  - rewrite A in E. destruct (split_digits _ b "#" "_" (str i) "0" E) as (_ & K & _); try reflexivity; [apply str_digits|repeat split|discriminate].
  - rewrite !A in E. destruct (split_digits _ _ "#" "#" (str i) (str j) E) as (K & _ & K'); try reflexivity; try apply str_digits.
    destruct (split_last a b " " " " K) as (-> & _). rewrite K'. auto.
Qed.
Lemma mem_str_in s l : mem_str s l = true <-> In s l.
Proof. unfold mem_str. rewrite existsb_exists. split; [intros (x & H & E); apply String.eqb_eq in E; congruence|]. intros H. exists s. rewrite String.eqb_refl. auto. Qed.

(** ** The table of suffixes *)
Section Table.
  Variables (count : nat) (uniq : list string).
  Hypothesis Hnd : NoDup uniq.
  Hypothesis Hlen : (0 < List.length uniq)%nat.
  Hypothesis Hcount : (List.length uniq < count)%nat.
  Let q := (count / List.length uniq)%nat.
  Let opts (s : string) : list string := suffixes count (List.length uniq) ++ (if mem_str s (firstn (count mod List.length uniq) uniq) then ["_0"] else []).
  Lemma quotient_pos : (1 <= q)%nat.
  Proof. unfold q. apply Nat.div_le_lower_bound; lia. Qed.
  Lemma lookup_known s : In s uniq -> lookup s (name_to_suffixes count uniq) = Some (opts s).
  Proof.
    change (name_to_suffixes count uniq) with (map (fun name => (name, opts name)) uniq). generalize opts as o. clear. intros o. generalize uniq as l. clear. induction l as [|x l IH]; [intros []|].
    intros H. cbn [map lookup]. destruct (String.eqb_spec s x) as [->|N]; [reflexivity|]. destruct H as [->|H]; [contradiction|]. apply IH, H.
  Qed.
  Lemma lookup_unknown s : ~ In s uniq -> lookup s (name_to_suffixes count uniq) = None.
  Proof.
    change (name_to_suffixes count uniq) with (map (fun name => (name, opts name)) uniq). generalize opts as o. clear. intros o. generalize uniq as l. clear. induction l as [|x l IH]; [reflexivity|].
    intros H. cbn [map lookup]. destruct (String.eqb_spec s x) as [->|N]; [exfalso; apply H; left; reflexivity|]. apply IH. intros K. apply H. right. exact K.
  Qed.
  Lemma opts_length s : List.length (opts s) = (q + if mem_str s (firstn (count mod List.length uniq) uniq) then 1 else 0)%nat.
  Proof. unfold opts, suffixes. rewrite app_length, map_length, seq_length. destruct (mem_str _ _); reflexivity. Qed.
  Lemma opts_pos s : (0 < List.length (opts s))%nat.
  Proof. rewrite opts_length. assert (K := quotient_pos). lia. Qed.
  Lemma opts_suffix s t : In t (opts s) -> is_suffix q t.
  Proof.
    unfold opts. intros H. apply in_app_or in H as [H|H].
    - right. unfold suffixes in H. apply in_map_iff in H as (i & <- & H). apply in_seq in H. exists (i + 1)%nat. split; [fold q in H; lia|reflexivity].
    - left. destruct (mem_str _ _); [destruct H as [<-|[]]; reflexivity|destruct H].
  Qed.
  Lemma opts_first s : nth 0 (opts s) "" = " #1".
  Proof. unfold opts, suffixes. fold q. assert (K := quotient_pos). destruct q; [lia|]. reflexivity. Qed.
  Lemma opts_nodup s : NoDup (opts s).
  Proof.
    unfold opts. assert (N : NoDup (suffixes count (List.length uniq))).
    { unfold suffixes. apply FinFun.Injective_map_NoDup; [|apply seq_NoDup]. intros i j E. injection E as E. apply str_inj in E. lia. }
    destruct (mem_str _ _); [|rewrite app_nil_r; exact N]. apply (Permutation_NoDup (Permutation_app_comm ["_0"] _)). constructor; [|exact N].
    intros H. unfold suffixes in H. apply in_map_iff in H as (i & E & _). discriminate.
  Qed.
  Definition pool : list string := concat (map (fun s => map (append s) (opts s)) uniq).
  Lemma pool_in k : In k pool <-> exists s t, In s uniq /\ In t (opts s) /\ k = append s t.
  Proof.
    unfold pool. rewrite in_concat. split.
    - intros (l & H & K). apply in_map_iff in H as (s & <- & H). apply in_map_iff in K as (t & <- & K). eauto.
    - intros (s & t & H & K & ->). eexists. split; [apply in_map_iff; eauto|]. apply in_map, K.
  Qed.
  Lemma pool_nodup : NoDup pool.
  Proof.
    unfold pool. assert (S0 := opts_suffix). assert (N0 := opts_nodup). revert Hnd S0 N0. generalize opts as o. generalize uniq as l. clear. intros l o N opts_suffix opts_nodup. revert N. induction l as [|x l IH]; intros N; [constructor|]. inversion N; subst. cbn [map concat].
    assert (Nx : NoDup (map (append x) (o x))).
    { assert (K := opts_nodup x). assert (S := opts_suffix x). revert K S. generalize (o x) as os. induction os as [|t os IHo]; intros K S; [constructor|]. inversion K; subst. cbn.
      constructor; [|apply IHo; auto using in_cons]. intros Hi. apply in_map_iff in Hi as (t' & E & Hi).
      destruct (suffix_inj q x x t' t (S _ (in_cons _ _ _ Hi)) (S _ (in_eq _ _)) E) as (_ & ->). contradiction. }
    assert (D : forall k, In k (map (append x) (o x)) -> ~ In k (concat (map (fun s => map (append s) (o s)) l))).
    { intros k Hk Hc. apply in_map_iff in Hk as (t & <- & Ht). apply in_concat in Hc as (m & Hm & Hk). apply in_map_iff in Hm as (y & <- & Hy). apply in_map_iff in Hk as (t' & E & Ht').
      destruct (suffix_inj q y x t' t (opts_suffix _ _ Ht') (opts_suffix _ _ Ht) E) as (-> & _). contradiction. }
    revert Nx D. generalize (map (append x) (o x)) as os. induction os as [|k os IHo]; intros Nx D; [exact (IH H2)|]. inversion Nx; subst. cbn. constructor.
    - intros K. apply in_app_or in K as [K|K]; [contradiction|]. apply (D k (in_eq _ _) K).
    - apply IHo; [assumption|]. intros k' Hk. apply D. right. exact Hk.
  Qed.
  Lemma pool_length : List.length pool = count.
  Proof.
    assert (M : (count mod List.length uniq <= List.length uniq)%nat) by (apply Nat.lt_le_incl, Nat.mod_upper_bound; lia).
    assert (G : forall l, List.length (concat (map (fun s => map (append s) (opts s)) l)) = (List.length l * q + List.length (filter (fun s => mem_str s (firstn (count mod List.length uniq) uniq)) l))%nat).
    { induction l as [|x l IH]; [reflexivity|]. cbn [map concat List.length filter]. rewrite app_length, map_length, opts_length, IH. destruct (mem_str x _); cbn [List.length]; lia. }
    unfold pool. rewrite G.
    assert (F : filter (fun s => mem_str s (firstn (count mod List.length uniq) uniq)) uniq = firstn (count mod List.length uniq) uniq).
    { revert Hnd. generalize (count mod List.length uniq)%nat as m. intros m. clear. revert uniq. induction m as [|m IH]; intros l N.
      - cbn. induction l; [reflexivity|]. cbn. inversion N; auto.
      - destruct l as [|x l]; [reflexivity|]. inversion N; subst. cbn [firstn filter]. assert (E : mem_str x (x :: firstn m l) = true) by (apply mem_str_in; left; reflexivity). rewrite E. f_equal.
        transitivity (filter (fun s => mem_str s (firstn m l)) l); [|apply IH, H2]. apply filter_ext_in. intros y Hy. unfold mem_str. cbn [existsb]. destruct (String.eqb_spec y x) as [->|]; [contradiction|reflexivity]. }
    rewrite F, firstn_length_le by exact M. unfold q. assert (K := Nat.div_mod count (List.length uniq) ltac:(lia)). lia.
  Qed.
  Lemma choose_in pick s n i : fair_pick pick -> In (choose pick (opts s) n i) (opts s).
  Proof. intros F. unfold choose. apply nth_In. apply F, opts_pos. Qed.
  Definition table_opts := opts.
End Table.

(** ** The copy *)
Lemma copied w : legal w -> exists w', deserialize (serialize w) = Restored (Ends w') /\ same_structure w w'.
Proof.
  intros [P M]. destruct (serialization_round_trip (wg_graph w) (wg_nodes w) (wg_start w) (wg_finish w) (pj_acyclic w P) (pj_closed w P) (pj_nodup w P) (pj_start w P) (pj_finish w P))
    as (w1 & w' & E & D & S & F & N & _ & _ & L & X).
  rewrite M in E. injection E as <-. exists w'. split; [exact D|].
  assert (K : forall a b, linked (wg_graph w') a b <-> linked (wg_graph w) a b).
  { intros a b. split; intros (e & H & E); exists e; split; auto; [apply (Permutation_in _ L H)|apply (Permutation_in _ (Permutation_sym L) H)]. }
  assert (I : forall a, In a (wg_nodes w') <-> In a (wg_nodes w)) by (intros a; split; apply Permutation_in; [exact N|apply Permutation_sym, N]).
  constructor; auto; [|intros n Hn; apply X, Hn]. constructor.
  - intros a H. apply (pj_acyclic w P a). revert H. generalize a at 1 3 as b. intros b H. induction H as [b c H|b c d H1 IH1 H2 IH2]; [apply Relation_Operators.t_step, K, H|eapply Relation_Operators.t_trans; eauto].
  - intros a b H. rewrite !I. apply (pj_closed w P), K, H.
  - apply (Permutation_NoDup (Permutation_sym N)), (pj_nodup w P).
  - rewrite S. destruct (pj_start w P) as [H1 H2]. split; [apply I, H1|]. intros a Ha. apply I, H2 in Ha as [->|(b & H)]; [left; reflexivity|right; exists b; apply K, H].
  - rewrite F. destruct (pj_finish w P) as [H1 H2]. split; [apply I, H1|]. intros a Ha. apply I, H2 in Ha as [->|(b & H)]; [left; reflexivity|right; exists b; apply K, H].
Qed.

(** ** The loops *)
Lemma update_nodes_made (update : nat -> xunit -> option xunit) f nodes : NoDup nodes -> forall unit,
  (forall n, In n nodes -> update n (unit n) = Some (f n)) ->
  exists unit', update_nodes update nodes unit = Some unit' /\ (forall n, In n nodes -> unit' n = f n) /\ forall n, ~ In n nodes -> unit' n = unit n.
Proof.
  induction 1 as [|n l N Nd IH]; intros unit H; cbn [update_nodes].
  - exists unit. split; [reflexivity|]. split; [intros n []|reflexivity].
  - rewrite (H n (in_eq _ _)). destruct (IH (fun m => if Nat.eqb m n then f n else unit m)) as (u' & E & A & B).
    { intros m Hm. destruct (Nat.eqb_spec m n) as [->|]; [contradiction|]. apply H. right. exact Hm. }
    exists u'. split; [exact E|]. split.
    + intros m [<-|Hm]; [|apply A, Hm]. rewrite (B _ N), Nat.eqb_refl. reflexivity.
    + intros m Hm. rewrite B by (intros K; apply Hm; right; exact K). destruct (Nat.eqb_spec m n) as [->|]; [exfalso; apply Hm; left; reflexivity|reflexivity].
Qed.
Definition new_req (o : string -> list string) pick (node i : nat) (r : kreq) : kreq :=
  KR (append (k_kind r) (choose pick (o (k_kind r)) node i)) (k_volume r) (k_min r) (k_max r) (k_name r).
Fixpoint new_reqs (o : string -> list string) pick (node i : nat) (l : list kreq) : list kreq :=
  match l with [] => [] | r :: rest => new_req o pick node i r :: new_reqs o pick node (S i) rest end.
Lemma update_reqs_made pick d o node l : forall i, (forall r, In r l -> lookup (k_kind r) d = Some (o (k_kind r))) ->
  update_reqs pick d node i l = Some (new_reqs o pick node i l).
Proof.
  induction l as [|r l IH]; intros i H; [reflexivity|]. cbn [update_reqs new_reqs]. rewrite (H r (in_eq _ _)), IH by auto using in_cons. reflexivity.
Qed.
Lemma new_reqs_in o pick node l : forall i r', In r' (new_reqs o pick node i l) <-> exists j r, nth_error l j = Some r /\ r' = new_req o pick node (i + j) r.
Proof.
  induction l as [|r l IH]; intros i r'; cbn [new_reqs].
  - split; [intros []|intros (j & r & E & _); destruct j; discriminate].
  - split.
    + intros [<-|H]; [exists 0%nat, r; rewrite Nat.add_0_r; auto|]. apply IH in H as (j & q & E & ->). exists (S j), q. split; [exact E|f_equal; lia].
    + intros ([|j] & q & E & ->); cbn in E; [injection E as ->; rewrite Nat.add_0_r; left; reflexivity|]. right. apply IH. exists j, q. split; [exact E|f_equal; lia].
Qed.
Lemma bases_distinct q (P : string -> Prop) l : NoDup l -> (forall k, In k l -> exists s, is_suffix q s /\ P (append k s)) ->
  exists l', NoDup l' /\ List.length l' = List.length l /\ forall k', In k' l' -> P k' /\ exists k s, In k l /\ is_suffix q s /\ k' = append k s.
Proof.
  induction 1 as [|k l N Nd IH]; intros H.
  - exists []. split; [constructor|]. split; [reflexivity|intros k' []].
  - destruct IH as (l' & A & B & C); [auto using in_cons|]. destruct (H k (in_eq _ _)) as (s & S & Hp). exists (append k s :: l'). split; [|split].
    + constructor; [|exact A]. intros K. apply C in K as (_ & k2 & s2 & Hk & S2 & E). destruct (suffix_inj q k k2 s s2 S S2 E) as (-> & _). contradiction.
    + cbn. rewrite B. reflexivity.
    + intros k' [<-|K]; [split; [exact Hp|]; exists k, s; split; [left; reflexivity|auto]|]. apply C in K as (K1 & k2 & s2 & Hk & K2). split; [exact K1|]. exists k2, s2. split; [right; exact Hk|exact K2].
Qed.
Lemma kinds_list x : NoDup (uniq_resource_kinds x) /\ forall k, In k (uniq_resource_kinds x) <-> required x k.
Proof.
  unfold uniq_resource_kinds. split; [apply NoDup_nodup|]. intros k. rewrite nodup_In, in_concat. split.
  - intros (l & H & K). apply in_map_iff in H as (n & <- & H). apply in_map_iff in K as (r & <- & K). exists n, r. auto.
  - intros (n & r & H & K & <-). eexists. split; [apply in_map_iff; exists n; auto|]. apply in_map, K.
Qed.
Lemma names_list x : NoDup (uniq_work_names x) /\ forall k, In k (uniq_work_names x) <-> own_name x k.
Proof.
  unfold uniq_work_names, own_name. split; [apply NoDup_filter, NoDup_nodup|]. intros k. rewrite filter_In, nodup_In, negb_true_iff, in_map_iff.
  assert (E : forall a b, mem_str k [a; b] = false <-> k <> a /\ k <> b).
  { intros a b. cbn. destruct (String.eqb_spec k a), (String.eqb_spec k b); cbn; split; intros; try discriminate; try tauto; auto. }
  rewrite E. unfold named. split; intros ((n & A & B) & C); (split; [exists n; auto|exact C]).
Qed.
Lemma number_unique P m l : number_of P m -> NoDup l -> (forall k, In k l <-> P k) -> List.length l = m.
Proof.
  intros (l0 & N0 & I0 & <-) N I. apply Nat.le_antisymm; apply NoDup_incl_length; auto; intros k Hk; [apply I0, I, Hk|apply I, I0, Hk].
Qed.
Lemma ends_of_suffix q s k : is_suffix q s -> ends_with_digit (append k s).
Proof.
  assert (G : forall d a, digits d -> d <> "" -> ends_with_digit (append a d)).
  { induction d as [|c d IH]; intros a D N; [contradiction|]. destruct D as [D1 D2]. destruct d as [|c' d]; [exists a, c; auto|].
    replace (append a (String c (String c' d))) with (append (append a (String c "")) (String c' d)) by (rewrite append_assoc; reflexivity). apply IH; [exact D2|discriminate]. }
  intros [->|(i & Hi & ->)].
  - change "_0" with (append "_" "0"). rewrite <- append_assoc. apply G; [repeat split|discriminate].
  - rewrite <- append_assoc. apply G; [apply str_digits|]. intros E. apply (str_inj i 0) in E || idtac.
    unfold str in E. assert (K : NilEmpty.uint_of_string (NilEmpty.string_of_uint (Nat.to_uint i)) = Some Nil) by (rewrite E; reflexivity). rewrite NilEmpty.usu in K. injection K as K.
    apply (f_equal Nat.of_uint) in K. rewrite Unsigned.of_to in K. cbn in K. lia.
Qed.
