(** C113: extending a work graph to more professions and to more names of works. *)
From Coq Require Import String ZArith List Bool Permutation Ascii Arith Lia.
From Verif Require Import TimeModel MomentumModel GraphModel TopoModel TraverseModel Digraph TraverseProofs TraverseTheorems GraphEditSpec GraphEditTheorems ExtendModel ExtendSpec ExtendProofs.
Import ListNotations.
Local Open Scope string_scope.
Local Open Scope list_scope.

Section Common.
  Variables (order : list string -> list string) (count : nat) (x : xgraph) (m : nat).
  Hypothesis L : legal (x_links x).
  Hypothesis Ho : fair_order order.
  Hypothesis Hm : number_of (required x) m.
  Hypothesis Hpos : (0 < m)%nat.
  Hypothesis Hc : (m < count)%nat.
  Let uniq := order (uniq_resource_kinds x).
  Lemma uniq_facts : NoDup uniq /\ List.length uniq = m /\ forall k, In k uniq <-> required x k.
  Proof.
    destruct (kinds_list x) as [N I]. assert (P := Ho (uniq_resource_kinds x)). fold uniq in P. split; [apply (Permutation_NoDup (Permutation_sym P) N)|].
    split; [rewrite (Permutation_length P); apply (number_unique _ _ _ Hm N I)|]. intros k. rewrite <- I. split; apply Permutation_in; [exact P|apply Permutation_sym, P].
  Qed.
  Let o := table_opts count uniq.
  Lemma resources_run pick : fair_pick pick -> exists y, extend_resources pick order count x = Extended y /\ same_structure (x_links x) (x_links y) /\
    forall n, In n (wg_nodes (x_links x)) -> x_unit y n = XU (x_name (x_unit x n)) (new_reqs o pick n 0 (x_reqs (x_unit x n))) (x_rest (x_unit x n)).
  Proof.
    intros F. destruct uniq_facts as (N & E & I). destruct (copied _ L) as (w & D & S). unfold extend_resources, extend_str_fields. fold uniq.
    rewrite E. destruct (Nat.leb_spec count m); [lia|]. rewrite D. destruct (Nat.eqb_spec m 0) as [Z0|Z0]; [lia|].
    destruct (update_nodes_made (update_resource_names pick (name_to_suffixes count uniq))
      (fun n => XU (x_name (x_unit x n)) (new_reqs o pick n 0 (x_reqs (x_unit x n))) (x_rest (x_unit x n))) (wg_nodes w) (pj_nodup w (ss_project _ _ S)) (x_unit x)) as (u' & K & A & _).
    { intros n Hn. unfold update_resource_names. rewrite (update_reqs_made pick _ o); [reflexivity|]. intros r Hr. apply lookup_known. apply I. exists n, r.
      split; [apply (Permutation_in _ (ss_nodes _ _ S) Hn)|auto]. }
    rewrite K. exists (XG w u'). split; [reflexivity|]. split; [exact S|]. intros n Hn. apply A, (Permutation_in _ (Permutation_sym (ss_nodes _ _ S)) Hn).
  Qed.
  Lemma required_after y pick : same_structure (x_links x) (x_links y) ->
    (forall n, In n (wg_nodes (x_links x)) -> x_unit y n = XU (x_name (x_unit x n)) (new_reqs o pick n 0 (x_reqs (x_unit x n))) (x_rest (x_unit x n))) ->
    forall k', required y k' <-> exists n j r, In n (wg_nodes (x_links x)) /\ nth_error (x_reqs (x_unit x n)) j = Some r /\ k' = append (k_kind r) (choose pick (o (k_kind r)) n j).
  Proof.
    intros S U k'. split.
    - intros (n & r' & Hn & Hr & <-). apply (Permutation_in _ (ss_nodes _ _ S)) in Hn. rewrite (U n Hn) in Hr. apply new_reqs_in in Hr as (j & r & E & ->). exists n, j, r. auto.
    - intros (n & j & r & Hn & E & ->). exists n, (new_req o pick n j r). split; [apply (Permutation_in _ (Permutation_sym (ss_nodes _ _ S)) Hn)|].
      split; [|reflexivity]. rewrite (U n Hn). apply new_reqs_in. exists j, r. auto.
  Qed.
End Common.

(** A request for more professions than there are is met from a pool of exactly that many
    names, each of which may occur. The works and links stay; each requirement stays but for
    the suffix of its profession. Requirements of different professions still differ, so the
    number of professions does not fall, and it does not exceed the request. *)
Theorem resources_extended order count x m :
  legal (x_links x) -> fair_order order -> number_of (required x) m -> (0 < m)%nat -> (m < count)%nat ->
  exists pool, NoDup pool /\ List.length pool = count /\
    (forall pick, fair_pick pick -> exists y m', extend_resources pick order count x = Extended y /\
      same_structure (x_links x) (x_links y) /\
      (forall n, In n (wg_nodes (x_links x)) ->
         x_name (x_unit y n) = x_name (x_unit x n) /\ x_rest (x_unit y n) = x_rest (x_unit x n) /\
         Forall2 (extended_req (count / m)) (x_reqs (x_unit x n)) (x_reqs (x_unit y n)) /\
         (NoDup (map k_kind (x_reqs (x_unit x n))) -> NoDup (map k_kind (x_reqs (x_unit y n))))) /\
      (forall k', required y k' -> In k' pool /\ exists! k, required x k /\ exists s, is_suffix (count / m) s /\ k' = append k s) /\
      number_of (required y) m' /\ (m <= m' <= count)%nat) /\
    (forall k, In k pool -> exists pick y, fair_pick pick /\ extend_resources pick order count x = Extended y /\ required y k).
Proof.
  intros L Ho Hm Hpos Hc. set (uniq := order (uniq_resource_kinds x)). destruct (uniq_facts order x m Ho Hm) as (N & E & I). fold uniq in N, E, I.
  assert (L0 : (0 < List.length uniq)%nat) by lia. assert (L1 : (List.length uniq < count)%nat) by lia.
  assert (Q : (count / List.length uniq)%nat = (count / m)%nat) by (rewrite E; reflexivity).
  exists (pool count uniq). split; [apply pool_nodup; assumption|]. split; [apply pool_length; assumption|]. split.
  - intros pick F. destruct (resources_run order count x m L Ho Hm Hpos Hc pick F) as (y & R & S & U). fold uniq in U.
    assert (RA := required_after order count x y pick S U). fold uniq in RA.
    assert (SU : forall s n i, is_suffix (count / m) (choose pick (table_opts count uniq s) n i)).
    { intros s n i. rewrite <- Q. apply (opts_suffix count uniq L0 L1 s). apply choose_in; assumption. }
    destruct (kinds_list y) as [Ny Iy].
    assert (B : forall k', required y k' -> In k' (pool count uniq)).
    { intros k' H. apply RA in H as (n & j & r & Hn & Er & ->). apply pool_in. exists (k_kind r), (choose pick (table_opts count uniq (k_kind r)) n j).
      split; [apply I; exists n, r; split; [exact Hn|split; [apply nth_error_In in Er; exact Er|reflexivity]]|]. split; [apply choose_in; assumption|reflexivity]. }
    exists y, (List.length (uniq_resource_kinds y)). split; [exact R|]. split; [exact S|]. split; [|split; [|split; [|split]]].
    + intros n Hn. rewrite (U n Hn). cbn [x_name x_rest x_reqs]. split; [reflexivity|]. split; [reflexivity|].
      assert (Fa : forall l i, Forall2 (extended_req (count / m)) l (new_reqs (table_opts count uniq) pick n i l)).
      { induction l as [|r l IH]; intros i; cbn [new_reqs]; constructor; [|apply IH]. split; [|auto]. eexists. split; [apply SU|reflexivity]. }
      split; [apply Fa|]. specialize (Fa (x_reqs (x_unit x n)) 0%nat). induction Fa as [|r r' l l' H Fa IH]; intros Nd; [constructor|]. cbn in *. apply NoDup_cons_iff in Nd as [H1 H2].
      constructor; [|auto]. intros K. apply in_map_iff in K as (r2 & Ek & Hr2). destruct H as ((s & Hs & Ks) & _).
      assert (X : exists r0 s0, In r0 l /\ is_suffix (count / m) s0 /\ k_kind r2 = append (k_kind r0) s0).
      { clear - Fa Hr2. induction Fa as [|a b l l' Hab Fa IH]; [destruct Hr2|]. destruct Hr2 as [<-|Hr2].
        - destruct Hab as ((s & Hs & Ks) & _). exists a, s. split; [left; reflexivity|auto].
        - destruct (IH Hr2) as (r0 & s0 & A & B). exists r0, s0. split; [right; exact A|exact B]. }
      destruct X as (r0 & s0 & Hr0 & Hs0 & K0). rewrite K0, Ks in Ek. destruct (suffix_inj _ _ _ _ _ Hs0 Hs Ek) as (Eq & _). apply H1. rewrite <- Eq. apply in_map, Hr0.
    + intros k' H. split; [apply B, H|]. apply RA in H as (n & j & r & Hn & Er & ->). exists (k_kind r). split.
      * split; [exists n, r; apply nth_error_In in Er; auto|]. eexists. split; [apply SU|reflexivity].
      * intros k (_ & s & Hs & Ek). destruct (suffix_inj _ _ _ _ _ (SU _ _ _) Hs Ek) as (Eq & _). exact Eq.
    + exists (uniq_resource_kinds y). auto.
    + destruct (bases_distinct (count / m) (required y) uniq N) as (l' & A1 & A2 & A3).
      { intros k Hk. apply I in Hk as (n & r & Hn & Hr & <-). apply In_nth_error in Hr as (j & Er). eexists. split; [apply (SU (k_kind r) n j)|]. apply RA. exists n, j, r. auto. }
      rewrite <- E, <- A2. apply NoDup_incl_length; [exact A1|]. intros k' Hk. apply Iy, A3, Hk.
    + rewrite <- (pool_length count uniq N L0 L1) at 1. apply NoDup_incl_length; [exact Ny|]. intros k' Hk. apply B, Iy, Hk.
  - intros k Hk. apply pool_in in Hk as (s & t & Hs & Ht & ->). apply (In_nth _ _ "") in Ht as (i & Hi & Et).
    set (pick := fun _ _ b : nat => if Nat.ltb i b then i else 0%nat). assert (F : fair_pick pick) by (intros a b c H; unfold pick; destruct (Nat.ltb_spec i c); lia).
    destruct (resources_run order count x m L Ho Hm Hpos Hc pick F) as (y & R & S & U). exists pick, y. split; [exact F|]. split; [exact R|].
    apply (required_after order count x y pick S U). apply I in Hs as (n & r & Hn & Hr & <-). apply In_nth_error in Hr as (j & Er). exists n, j, r. split; [exact Hn|]. split; [exact Er|].
    f_equal. unfold choose, pick. fold uniq. unfold table_opts. destruct (Nat.ltb_spec i (List.length (suffixes count (List.length uniq) ++ (if mem_str (k_kind r) (firstn (count mod List.length uniq) uniq) then ["_0"] else [])))); [symmetry; exact Et|lia].
Qed.
Print Assumptions resources_extended.

(** A graph that has enough professions is given back as it is. *)
Theorem resources_suffice pick order count x m : fair_order order -> number_of (required x) m -> (count <= m)%nat ->
  extend_resources pick order count x = Extended x.
Proof.
  intros Ho Hm Hc. destruct (uniq_facts order x m Ho Hm) as (_ & E & _). unfold extend_resources, extend_str_fields. rewrite E. destruct (Nat.leb_spec count m); [reflexivity|lia].
Qed.
Print Assumptions resources_suffice.

(** Finding: the requested number of professions may not be reached: with some choices there
    are as many as before, whatever was requested. *)
Theorem resources_not_reached order count x m :
  legal (x_links x) -> fair_order order -> number_of (required x) m -> (0 < m)%nat -> (m < count)%nat ->
  exists pick y, fair_pick pick /\ extend_resources pick order count x = Extended y /\ number_of (required y) m.
Proof.
  intros L Ho Hm Hpos Hc. set (uniq := order (uniq_resource_kinds x)). destruct (uniq_facts order x m Ho Hm) as (N & E & I). fold uniq in N, E, I.
  set (pick := fun _ _ _ : nat => 0%nat). assert (F : fair_pick pick) by (intros a b c H; exact H).
  destruct (resources_run order count x m L Ho Hm Hpos Hc pick F) as (y & R & S & U). exists pick, y. split; [exact F|]. split; [exact R|].
  assert (RA := required_after order count x y pick S U). fold uniq in RA. exists (map (fun k => append k " #1") uniq). split; [|split].
  - apply FinFun.Injective_map_NoDup; [|exact N]. intros a b K. destruct (suffix_inj 1 a b " #1" " #1") as (Eq & _); auto; right; exists 1%nat; split; [lia|reflexivity|lia|reflexivity].
  - assert (C : forall s n i, choose pick (table_opts count uniq s) n i = " #1") by (intros s n i; apply (opts_first count uniq ltac:(lia) ltac:(lia))).
    intros k. rewrite in_map_iff, RA. split.
    + intros (s & <- & Hs). apply I in Hs as (n & r & Hn & Hr & <-). apply In_nth_error in Hr as (j & Er). exists n, j, r. rewrite C. auto.
    + intros (n & j & r & Hn & Er & ->). rewrite C. exists (k_kind r). split; [reflexivity|]. apply I. exists n, r. apply nth_error_In in Er. auto.
  - rewrite map_length. exact E.
Qed.
Print Assumptions resources_not_reached.

(** A graph without requirements for workers cannot be extended. *)
Theorem no_resources_fails pick order count x : legal (x_links x) -> fair_order order -> (forall k, ~ required x k) -> (0 < count)%nat ->
  extend_resources pick order count x = ZeroDivisionError.
Proof.
  intros L Ho H Hc. assert (Hm : number_of (required x) 0).
  { exists []. split; [constructor|]. split; [|reflexivity]. intros s. split; [intros []|]. intros K. apply H in K. destruct K. }
  destruct (uniq_facts order x 0 Ho Hm) as (_ & E & _). destruct (copied _ L) as (w & D & _). unfold extend_resources, extend_str_fields. rewrite E, D. destruct (Nat.leb_spec count 0); [lia|reflexivity].
Qed.
Print Assumptions no_resources_fails.

(** Finding: no contractor that could do the works before can do them afterwards, if none
    of its professions ends with a digit (those of the generator do not). *)
Theorem old_contractors_useless pick order count x y m (professions : list string) :
  legal (x_links x) -> fair_order order -> fair_pick pick -> number_of (required x) m -> (0 < m)%nat -> (m < count)%nat ->
  extend_resources pick order count x = Extended y -> (forall k, In k professions -> ~ ends_with_digit k) ->
  forall n r, In n (wg_nodes (x_links y)) -> In r (x_reqs (x_unit y n)) -> ~ In (k_kind r) professions.
Proof.
  intros L Ho F Hm Hpos Hc R Hp n r Hn Hr K. destruct (resources_extended order count x m L Ho Hm Hpos Hc) as (pool & _ & _ & A & _).
  destruct (A pick F) as (y' & m' & R' & _ & _ & B & _). rewrite R in R'. injection R' as <-.
  destruct (B (k_kind r)) as (_ & k & (_ & s & Hs & E) & _); [exists n, r; auto|]. apply (Hp _ K). rewrite E. apply (ends_of_suffix _ _ _ Hs).
Qed.
Print Assumptions old_contractors_useless.

(** Names that were given to the works by assignment are extended in the same way; the works
    that are named as the start or the finish are left as they are. *)
Theorem names_extended order count x m :
  legal (x_links x) -> fair_order order -> number_of (own_name x) m -> (0 < m)%nat -> (m < count)%nat ->
  exists pool, NoDup pool /\ List.length pool = count /\ forall pick, fair_pick pick ->
    exists y, extend_names pick order count x = Extended y /\ same_structure (x_links x) (x_links y) /\
      forall n, In n (wg_nodes (x_links x)) ->
        x_reqs (x_unit y n) = x_reqs (x_unit x n) /\ x_rest (x_unit y n) = x_rest (x_unit x n) /\
        (own_name x (x_name (x_unit x n)) -> In (x_name (x_unit y n)) pool /\ exists s, is_suffix (count / m) s /\ x_name (x_unit y n) = append (x_name (x_unit x n)) s) /\
        (~ own_name x (x_name (x_unit x n)) -> x_name (x_unit y n) = x_name (x_unit x n)).
Proof.
  intros L Ho Hm Hpos Hc. set (uniq := order (uniq_work_names x)). destruct (names_list x) as [N0 I0]. assert (P := Ho (uniq_work_names x)). fold uniq in P.
  assert (N : NoDup uniq) by (apply (Permutation_NoDup (Permutation_sym P) N0)).
  assert (E : List.length uniq = m) by (rewrite (Permutation_length P); apply (number_unique _ _ _ Hm N0 I0)).
  assert (I : forall k, In k uniq <-> own_name x k) by (intros k; rewrite <- I0; split; apply Permutation_in; [exact P|apply Permutation_sym, P]).
  exists (pool count uniq). split; [apply pool_nodup; [exact N|lia|lia]|]. split; [apply pool_length; [exact N|lia|lia]|]. intros pick F.
  destruct (copied _ L) as (w & D & S). unfold extend_names, extend_str_fields. fold uniq. rewrite E. destruct (Nat.leb_spec count m); [lia|]. rewrite D. destruct (Nat.eqb_spec m 0) as [Z0|Z0]; [lia|].
  set (f := fun n => match lookup (x_name (x_unit x n)) (name_to_suffixes count uniq) with
                     | Some options => XU (append (x_name (x_unit x n)) (choose pick options n 0)) (x_reqs (x_unit x n)) (x_rest (x_unit x n))
                     | None => x_unit x n end).
  destruct (update_nodes_made (update_work_name pick (name_to_suffixes count uniq)) f (wg_nodes w) (pj_nodup w (ss_project _ _ S)) (x_unit x)) as (u' & K & A & _).
  { intros n _. unfold update_work_name, f. destruct (lookup _ _); reflexivity. }
  rewrite K. exists (XG w u'). split; [reflexivity|]. split; [exact S|]. intros n Hn. cbn [x_unit]. rewrite (A n (Permutation_in _ (Permutation_sym (ss_nodes _ _ S)) Hn)). unfold f.
  destruct (in_dec string_dec (x_name (x_unit x n)) uniq) as [Hi|Hi].
  - rewrite (lookup_known count uniq _ Hi). cbn [x_name x_reqs x_rest]. split; [reflexivity|]. split; [reflexivity|]. split; [|intros Q; exfalso; apply Q, I, Hi]. intros _.
    assert (C : In (choose pick (table_opts count uniq (x_name (x_unit x n))) n 0) (table_opts count uniq (x_name (x_unit x n)))) by (apply choose_in; [lia|lia|exact F]).
    split; [apply pool_in; exists (x_name (x_unit x n)), (choose pick (table_opts count uniq (x_name (x_unit x n))) n 0); auto|].
    eexists. split; [|reflexivity]. rewrite <- E. apply (opts_suffix count uniq ltac:(lia) ltac:(lia) _ _ C).
  - rewrite (lookup_unknown count uniq _ Hi). split; [reflexivity|]. split; [reflexivity|]. split; [intros Q; exfalso; apply Hi, I, Q|reflexivity].
Qed.
Print Assumptions names_extended.

(** Finding: works made by the constructor all have the same name, so no request for names is
    ever met: extend_names and advanced_work_graph raise. *)
Theorem names_never_extended pick order count x : legal (x_links x) -> fair_order order -> (0 < count)%nat ->
  (forall n, In n (wg_nodes (x_links x)) -> exists reqs rest, x_unit x n = new_unit reqs rest) ->
  extend_names pick order count x = ZeroDivisionError /\ forall uniq_resources, advanced pick order count uniq_resources x = ZeroDivisionError.
Proof.
  intros L Ho Hc H.
  assert (E : uniq_work_names x = []).
  { destruct (names_list x) as [_ I]. destruct (uniq_work_names x) as [|s l]; [reflexivity|]. exfalso.
    destruct (proj1 (I s) (in_eq _ _)) as ((n & Hn & <-) & Ns & _). apply Ns.
    destruct (H n Hn) as (a & b & ->). destruct (H _ (proj1 (pj_start _ (proj1 L)))) as (c & d & ->). reflexivity. }
  assert (G : extend_names pick order count x = ZeroDivisionError).
  { unfold extend_names, extend_str_fields. rewrite E. assert (P := Permutation_length (Ho [])). rewrite P. destruct (copied _ L) as (w & D & _). rewrite D. cbn [List.length]. destruct (Nat.leb_spec count 0) as [Q|Q]; [lia|reflexivity]. }
  split; [exact G|]. intros k. unfold advanced. rewrite G. reflexivity.
Qed.
Print Assumptions names_never_extended.

(** ** Examples *)
(** A project of four works; two of them need drivers, one also needs fitters. *)
Definition ex_links : work_graph := WG (Gr [Ed 0 1 0%Z FS; Ed 0 2 0%Z FS; Ed 1 3 0%Z FS; Ed 2 3 0%Z FS] (fun _ => WU false [] 0%Z)) 0 3 [0; 1; 2; 3]%nat.
Definition ex_unit (n : nat) : xunit :=
  match n with
  | 1%nat => new_unit [KR "driver" 10 1 3 ""; KR "fitter" 20 2 4 ""] 1
  | 2%nat => new_unit [KR "driver" 5 1 2 ""] 2
  | _ => new_unit [] 0
  end.
Definition ex_graph : xgraph := XG ex_links ex_unit.
Definition ex_pick : nat -> nat -> nat -> nat := fun n _ k => (n mod k)%nat.
Example ex_legal : legal ex_links.
Proof. split; [apply project_check_sound; reflexivity|reflexivity]. Qed.
Example ex_fair : fair_pick ex_pick /\ fair_order (fun l => l).
Proof. split; [intros n i k H; apply Nat.mod_upper_bound; lia|intros l; apply Permutation_refl]. Qed.
Example ex_number : number_of (required ex_graph) 2.
Proof. exists (uniq_resource_kinds ex_graph). destruct (kinds_list ex_graph). auto. Qed.
(** Five professions are requested; three are reached. *)
Example ex_extended :
  match extend_resources ex_pick (fun l => l) 5 ex_graph with
  | Extended y => map (fun n => map k_kind (x_reqs (x_unit y n))) [1; 2]%nat = [["driver #2"; "fitter #2"]; ["driver #1"]]
  | _ => False
  end.
Proof. vm_compute. reflexivity. Qed.
(** Names given by assignment. *)
Definition ex_named : xgraph := XG ex_links (fun n => XU (match n with 0%nat => "start" | 3%nat => "finish" | _ => "road" end) [] 0).
Example ex_names : number_of (own_name ex_named) 1 /\
  match extend_names ex_pick (fun l => l) 3 ex_named with
  | Extended y => map (fun n => x_name (x_unit y n)) [0; 1; 2; 3]%nat = ["start"; "road #2"; "road #3"; "finish"]
  | _ => False
  end.
Proof. split; [exists (uniq_work_names ex_named); destruct (names_list ex_named); auto|vm_compute; reflexivity]. Qed.
(** Works made by the constructor. *)
Example ex_dummy : forall n, In n (wg_nodes (x_links ex_graph)) -> exists reqs rest, x_unit ex_graph n = new_unit reqs rest.
Proof. intros n _. cbn. unfold ex_unit. destruct n as [|[|[|n]]]; eauto. Qed.
Example ex_professions : forall k, In k ["driver"; "fitter"; "manager"; "handyman"; "electrician"; "engineer"] -> ~ ends_with_digit k.
Proof.
  assert (G : forall s a c, s = append a (String c "") -> (fix last_ok (t : string) : bool := match t with "" => true | String d "" => negb (is_digit d) | String _ r => last_ok r end) s = true -> is_digit c = false).
  { intros s a c ->. induction a as [|z a IH]; cbn; [apply negb_true_iff|]. destruct (append a (String c "")) eqn:Ea; [destruct a; discriminate|exact IH]. }
  intros k Hk (a & c & E & D). assert (K : is_digit c = false); [|congruence].
  cbn in Hk. repeat (destruct Hk as [<-|Hk]; [eapply G; [exact E|reflexivity]|]). destruct Hk.
Qed.

(** With names given by assignment advanced_work_graph extends both: the works and links stay,
    the name and each profession get a suffix, all else stays. *)
Theorem both_extended pick order cn cr x mn mr :
  legal (x_links x) -> fair_order order -> fair_pick pick ->
  number_of (own_name x) mn -> (0 < mn < cn)%nat -> number_of (required x) mr -> (0 < mr < cr)%nat ->
  exists y, advanced pick order cn cr x = Extended y /\ same_structure (x_links x) (x_links y) /\
    forall n, In n (wg_nodes (x_links x)) ->
      x_rest (x_unit y n) = x_rest (x_unit x n) /\ Forall2 (extended_req (cr / mr)) (x_reqs (x_unit x n)) (x_reqs (x_unit y n)) /\
      (own_name x (x_name (x_unit x n)) -> exists s, is_suffix (cn / mn) s /\ x_name (x_unit y n) = append (x_name (x_unit x n)) s) /\
      (~ own_name x (x_name (x_unit x n)) -> x_name (x_unit y n) = x_name (x_unit x n)).
Proof.
  intros L Ho Hp Hn Hcn Hr Hcr. destruct (names_extended order cn x mn L Ho Hn ltac:(lia) ltac:(lia)) as (pool & _ & _ & A). destruct (A pick Hp) as (z & E & S & U).
  assert (L' : legal (x_links z)).
  { split; [apply (ss_project _ _ S)|]. unfold extend_names, extend_str_fields in E. destruct (Nat.leb _ _); [injection E as <-; apply L|].
    destruct (deserialize (serialize (x_links x))) as [[w|]| | |] eqn:D; try discriminate. destruct (Nat.eqb _ _); [discriminate|]. destruct (update_nodes _ _ _); [|discriminate]. injection E as <-. cbn [x_links].
    unfold deserialize in D. destruct (serialize (x_links x)) as [|first l]; [discriminate|]. destruct (ni_parents first); [|discriminate]. destruct (rebuild _ _ _) as [[a b]|]; [|discriminate].
    injection D as D. unfold make_work_graph in *. destruct (traverse_children true b (ni_id first)) as [l0|] eqn:T; [|discriminate]. injection D as <-. cbn [wg_graph wg_start wg_finish]. rewrite T. reflexivity. }
  assert (I : forall n, In n (wg_nodes (x_links z)) <-> In n (wg_nodes (x_links x))) by (intros n; split; apply Permutation_in; [apply (ss_nodes _ _ S)|apply Permutation_sym, (ss_nodes _ _ S)]).
  assert (R : number_of (required z) mr).
  { destruct Hr as (l & N & Hl & El). exists l. split; [exact N|]. split; [|exact El]. intros s. rewrite Hl. unfold required.
    split; intros (n & r & H1 & H2 & H3); exists n, r; (split; [apply I, H1|split; [|exact H3]]); [rewrite (proj1 (U n H1))|rewrite <- (proj1 (U n (proj1 (I n) H1)))]; exact H2. }
  destruct (resources_extended order cr z mr L' Ho R ltac:(lia) ltac:(lia)) as (pool' & _ & _ & B & _). destruct (B pick Hp) as (y & m' & E' & S' & U' & _).
  exists y. unfold advanced. rewrite E. split; [exact E'|]. split.
  - constructor.
    + apply (ss_project _ _ S').
    + rewrite (ss_start _ _ S'). apply (ss_start _ _ S).
    + rewrite (ss_finish _ _ S'). apply (ss_finish _ _ S).
    + rewrite (ss_nodes _ _ S'). apply (ss_nodes _ _ S).
    + rewrite (ss_edges _ _ S'). apply (ss_edges _ _ S).
    + intros n K. rewrite (ss_parents _ _ S') by (apply I, K). apply (ss_parents _ _ S), K.
  - intros n K. destruct (U n K) as (U1 & U2 & U3 & U4). destruct (U' n (proj2 (I n) K)) as (V1 & V2 & V3 & _). rewrite V2, V1, <- U1. split; [exact U2|]. split; [exact V3|]. split; [intros Q; destruct (U3 Q) as (_ & s & Q1 & Q2); eauto|exact U4].
Qed.
Print Assumptions both_extended.
Definition ex_both : xgraph := XG ex_links (fun n => XU (match n with 0%nat => "start" | 3%nat => "finish" | _ => "road" end) (x_reqs (x_unit ex_graph n)) 0).
Example ex_advanced : number_of (own_name ex_both) 1 /\ number_of (required ex_both) 2 /\
  match advanced ex_pick (fun l => l) 3 5 ex_both with
  | Extended y => map (fun n => (x_name (x_unit y n), map k_kind (x_reqs (x_unit y n)))) [1; 2]%nat = [("road #2", ["driver #2"; "fitter #2"]); ("road #3", ["driver #1"])]
  | _ => False
  end.
Proof.
  split; [exists (uniq_work_names ex_both); destruct (names_list ex_both); auto|]. split; [exists (uniq_resource_kinds ex_both); destruct (kinds_list ex_both); auto|vm_compute; reflexivity].
Qed.
