(** C100: the links that are found in historical data. *)
From Coq Require Import ZArith QArith List Bool Ascii String Lia Lqa Arith Relations Permutation Sorted.
From Verif Require Import TimeModel MomentumModel GraphModel StableSort ParserModel ParserProofs ParserGraph
  HistoryModel HistorySpec HistoryProofs.
Import ListNotations.
Local Open Scope Z_scope.

(** ** Pairs *)
Lemma pairs_in {A} (l : list A) a b : In (a, b) (pairs l) -> exists l1 l2 l3, l = l1 ++ a :: l2 ++ b :: l3.
Proof.
  induction l as [|x l IH]; cbn [pairs]; [intros []|]. intros H. apply in_app_or in H as [H|H].
  - apply in_map_iff in H as (y & [= -> ->] & Hy). apply in_split in Hy as (l2 & l3 & ->). exists [], l2, l3. reflexivity.
  - destruct (IH H) as (l1 & l2 & l3 & ->). exists (x :: l1), l2, l3. reflexivity.
Qed.
Lemma pairs_all {A} (l : list A) a b : In a l -> In b l -> a <> b -> In (a, b) (pairs l) \/ In (b, a) (pairs l).
Proof.
  induction l as [|x l IH]; intros Ha Hb Hne; [destruct Ha|]. cbn [pairs]. rewrite !in_app_iff.
  destruct Ha as [->|Ha], Hb as [->|Hb]; [congruence| | |destruct (IH Ha Hb Hne); auto].
  - left. left. apply in_map. exact Hb.
  - right. left. apply in_map. exact Ha.
Qed.
Lemma pairs_nodup {A} (l : list A) : NoDup l -> NoDup (pairs l) /\ forall a b, In (a, b) (pairs l) -> In a l /\ In b l /\ a <> b /\ ~ In (b, a) (pairs l).
Proof.
  induction 1 as [|x l Hx Hnd [IH1 IH2]]; cbn [pairs]; [split; [constructor|intros a b []]|]. split.
  - clear IH2. assert (Hx' : forall y, ~ In (x, y) (pairs l)).
    { intros y C. apply pairs_in in C as (l1 & l2 & l3 & ->). apply Hx. rewrite in_app_iff. right. left. reflexivity. }
    assert (G : forall m : list A, NoDup m -> forall t : list (A * A), NoDup t -> (forall y, ~ In (x, y) t) -> NoDup (map (pair x) m ++ t)).
    { intros m Hm t Ht Hno. induction Hm as [|z m Hz Hm IHm]; [exact Ht|]. cbn. constructor; [|exact IHm].
      intros C. apply in_app_or in C as [C|C]; [|eapply Hno; exact C]. apply in_map_iff in C as (z' & [= ->] & Hz'). tauto. }
    apply G; assumption.
  - intros a b H. apply in_app_or in H as [H|H].
    + apply in_map_iff in H as (y & [= <- <-] & Hy). split; [left; reflexivity|]. split; [right; exact Hy|]. split; [congruence|].
      intros C. apply in_app_or in C as [C|C].
      * apply in_map_iff in C as (y' & [= <- <-] & _). tauto.
      * destruct (IH2 _ _ C) as (_ & C' & _). tauto.
    + destruct (IH2 _ _ H) as (H1 & H2 & H3 & H4). split; [right; exact H1|]. split; [right; exact H2|]. split; [exact H3|].
      intros C. apply in_app_or in C as [C|C]; [|tauto]. apply in_map_iff in C as (y' & [= <- <-] & _). tauto.
Qed.
Lemma nodup_flat {A B K} (key : B -> K) (f : A -> list B) l : NoDup l -> (forall x, In x l -> NoDup (map key (f x))) ->
  (forall x y b c, In x l -> In y l -> In b (f x) -> In c (f y) -> key b = key c -> x = y) -> NoDup (map key (flat_map f l)).
Proof.
  induction 1 as [|x l Hx Hnd IH]; intros H1 H2; [constructor|]. cbn [flat_map]. rewrite map_app.
  assert (Hl : NoDup (map key (flat_map f l))) by (apply IH; intros; [apply H1; right; assumption|eapply H2; eauto; right; assumption]).
  assert (Hf := H1 x (or_introl eq_refl)).
  assert (Hd : forall k, In k (map key (f x)) -> ~ In k (map key (flat_map f l))).
  { intros k Hk C. apply in_map_iff in Hk as (b & <- & Hb). apply in_map_iff in C as (c & E & Hc). apply in_flat_map in Hc as (y & Hy & Hc).
    apply Hx. rewrite (H2 x y b c); auto; [left; reflexivity|right; exact Hy]. }
  revert Hf Hd. generalize (map key (f x)). intros m Hf Hd. induction Hf as [|k m Hk Hm IHm]; [exact Hl|]. cbn. constructor.
  - intros C. apply in_app_or in C as [C|C]; [tauto|]. exact (Hd k (or_introl eq_refl) C).
  - apply IHm. intros k' Hk'. apply Hd. right. exact Hk'.
Qed.

(** ** C100 *)
(** What a link found in the history says, [l] being the common occurrences of its
    predecessor and its work. It exists because there are occurrences, and knows their number;
    its lag is a share. If the occurrences are regular, then the predecessor starts first in
    at least half of them; the type follows from the numbers of kinds of occurrences, and the
    lag is, up to rounding, the least share of the predecessor that was done in those, of the
    shares not far below their average. *)
Definition link_says (h : hlink) (l : list occ) : Prop :=
  l <> [] /\ hl_count h = Z.of_nat (List.length l) /\ (0 <= hl_lag h <= 1)%Q
  /\ ((forall o, In o l -> regular o) ->
      Z.of_nat (List.length l) <= 2 * occurrences_of starts_first l
      /\ hl_type h = the_type (occurrences_of after l) (occurrences_of contains l) (occurrences_of overlaps l)
      /\ (hl_type h = FS -> hl_lag h = 0%Q)
      /\ (hl_type h = SS -> exists o, In o l /\ contains o = true /\ least_typical (map share (filter contains l)) (share o)
          /\ (share o - (1 # 200) <= hl_lag h <= share o + (1 # 200))%Q)
      /\ (hl_type h = FFS -> exists o, In o l /\ overlaps o = true /\ least_typical (map share (filter overlaps l)) (share o)
          /\ (share o - (1 # 200) <= hl_lag h <= share o + (1 # 200))%Q)).
Section Links.
  Variable history : list hrow.
  Variable name_of : str -> nat.
  Variable perf : nat -> nat -> list days.
  Hypothesis Hperf : forall site n, performances history site n (perf site n).
  Let occs (a b : str) : list occ := common history perf (name_of a) (name_of b).
  Definition found (p : str * str) : list hlink := match pair_links history name_of p with Ok l => l | Err _ => [] end.

  Lemma starts_split l : (forall o, In o l -> regular o) ->
    occurrences_of starts_first l + occurrences_of starts_first (map turned l) = Z.of_nat (List.length l).
  Proof.
    intros H. unfold occurrences_of. induction l as [|[[[s1 f1] s2] f2] l IH]; [reflexivity|].
    specialize (IH (fun o Ho => H o (or_intror Ho))). destruct (H _ (or_introl eq_refl)) as (R1 & R2 & R3). cbn [map filter].
    change (starts_first (s1, f1, s2, f2)) with (s1 <? s2). change (starts_first (turned (s1, f1, s2, f2))) with (s2 <? s1).
    destruct (Z.ltb_spec s1 s2), (Z.ltb_spec s2 s1); try lia; cbn [List.length]; lia.
  Qed.
  Lemma regular_turned l : (forall o, In o l -> regular o) -> forall o, In o (map turned l) -> regular o.
  Proof.
    intros H o Ho. apply in_map_iff in Ho as ([[[s1 f1] s2] f2] & <- & Ho). specialize (H _ Ho). unfold regular, turned in *. lia.
  Qed.
  Lemma pair_links_spec a b : name_of a <> name_of b ->
    (occs a b = [] -> pair_links history name_of (a, b) = Ok [])
    /\ (occs a b <> [] -> exists h, pair_links history name_of (a, b) = Ok [h]
          /\ ((hl_work h = b /\ hl_pred h = a /\ link_says h (occs a b)) \/ (hl_work h = a /\ hl_pred h = b /\ link_says h (occs b a)))).
  Proof.
    intros Hne. unfold pair_links. destruct (Nat.eqb_spec (name_of a) (name_of b)); [congruence|].
    rewrite (occurrences_common history perf _ _ Hperf). unfold occs. rewrite (common_turned history perf (name_of a) (name_of b)).
    set (l := common history perf (name_of a) (name_of b)). clearbody l.
    assert (Hc : coherent (gather_all l)) by (apply fold_coherent, no_stats_coherent).
    destruct (decide_ok _ Hc) as [D0 D1]. split.
    - intros ->. rewrite D0 by reflexivity. reflexivity.
    - intros Hl. destruct (D1 (gather_all_pos l Hl)) as (t & q & Ed & Hq). rewrite Ed. cbn [bind].
      apply decide_type in Ed as (_ & Et & Efs & Ess & Effs).
      assert (Near : forall p m x, least_typical (map share (filter p m)) x -> q = round2 x ->
                exists o, In o m /\ p o = true /\ least_typical (map share (filter p m)) (share o) /\ (share o - (1 # 200) <= q <= share o + (1 # 200))%Q).
      { intros p m x Hx ->. assert (Hx' := Hx). destruct Hx' as [Hx' _]. apply in_map_iff in Hx' as (o & E & Ho). rewrite <- E in *.
        apply filter_In in Ho as [Ho Hp]. exists o. split; [exact Ho|]. split; [exact Hp|]. split; [exact Hx|apply round2_near]. }
      destruct (Z.leb_spec (backward (gather_all l)) (toward (gather_all l))) as [Hle|Hle].
      + eexists. split; [reflexivity|]. left. cbn [hl_work hl_pred]. split; [reflexivity|]. split; [reflexivity|].
        unfold link_says. cbn [hl_type hl_lag hl_count]. split; [exact Hl|]. split; [reflexivity|]. split; [exact Hq|].
        intros Hr. destruct (gather_all_sides l Hr) as [(E1 & E2 & E3 & E4 & E5) (F1 & F2 & F3 & _)].
        assert (T1 := three_ways l Hr). assert (T2 := three_ways _ (regular_turned l Hr)). assert (T3 := starts_split l Hr).
        unfold toward, backward in Hle. rewrite E1, E2, E3, F1, F2, F3 in Hle. split; [lia|].
        rewrite E1, E2, E3 in Et. rewrite E4 in Ess. rewrite E5 in Effs. split; [exact Et|]. split; [exact Efs|]. split.
        * intros C. destruct (Ess C) as (x & Hx & E). exact (Near _ _ x Hx E).
        * intros C. destruct (Effs C) as (x & Hx & E). exact (Near _ _ x Hx E).
      + eexists. split; [reflexivity|]. right. cbn [hl_work hl_pred]. split; [reflexivity|]. split; [reflexivity|].
        unfold link_says. cbn [hl_type hl_lag hl_count]. rewrite map_length. split; [intros C; apply map_eq_nil in C; congruence|].
        split; [reflexivity|]. split; [exact Hq|].
        intros Hr'. assert (Hr : forall o, In o l -> regular o).
        { intros [[[s1 f1] s2] f2] Ho. specialize (Hr' _ (in_map turned _ _ Ho)). unfold regular, turned in *. lia. }
        destruct (gather_all_sides l Hr) as [(E1 & E2 & E3 & _) (F1 & F2 & F3 & F4 & F5)].
        assert (T1 := three_ways l Hr). assert (T2 := three_ways _ (regular_turned l Hr)). assert (T3 := starts_split l Hr).
        unfold toward, backward in Hle. rewrite E1, E2, E3, F1, F2, F3 in Hle. split; [lia|].
        rewrite F1, F2, F3 in Et. rewrite F4 in Ess. rewrite F5 in Effs. split; [exact Et|]. split; [exact Efs|]. split.
        * intros C. destruct (Ess C) as (x & Hx & E). exact (Near _ _ x Hx E).
        * intros C. destruct (Effs C) as (x & Hx & E). exact (Near _ _ x Hx E).
  Qed.
  Lemma pair_links_ok p : pair_links history name_of p = Ok (found p).
  Proof.
    unfold found. destruct p as [a b]. destruct (Nat.eq_dec (name_of a) (name_of b)) as [E|E].
    - unfold pair_links. apply Nat.eqb_eq in E. rewrite E. reflexivity.
    - destruct (pair_links_spec a b E) as [H1 H2]. destruct (occs a b) as [|o r] eqn:Eo; [rewrite H1; reflexivity|].
      destruct H2 as (h & -> & _); [congruence|reflexivity].
  Qed.
  Lemma found_spec a b h : In h (found (a, b)) -> name_of a <> name_of b /\ occs a b <> [] /\ found (a, b) = [h]
    /\ ((hl_work h = b /\ hl_pred h = a /\ link_says h (occs a b)) \/ (hl_work h = a /\ hl_pred h = b /\ link_says h (occs b a))).
  Proof.
    unfold found. destruct (Nat.eq_dec (name_of a) (name_of b)) as [E|E].
    - unfold pair_links. apply Nat.eqb_eq in E. rewrite E. intros [].
    - destruct (pair_links_spec a b E) as [H1 H2]. destruct (occs a b) as [|o r] eqn:Eo; [rewrite H1 by reflexivity; intros []|].
      destruct H2 as (h' & -> & H2); [congruence|]. intros [<-|[]]. split; [exact E|]. split; [congruence|]. split; [reflexivity|exact H2].
  Qed.

  (** The search for links in the history never fails. Every link it finds is between two of
      the works with different names and says what [link_says] states. For any two works with
      different names and a common occurrence, and only for those, there is exactly one link,
      one way or the other. *)
  Theorem history_links works : NoDup works ->
    exists links, get_all_seq_statistic history name_of works = Ok links
      /\ NoDup (map (fun h => (hl_work h, hl_pred h)) links)
      /\ (forall h, In h links -> In (hl_work h) works /\ In (hl_pred h) works /\ name_of (hl_work h) <> name_of (hl_pred h)
            /\ link_says h (common history perf (name_of (hl_pred h)) (name_of (hl_work h)))
            /\ forall h', In h' links -> hl_work h' = hl_pred h -> hl_pred h' <> hl_work h)
      /\ (forall a b, In a works -> In b works -> name_of a <> name_of b -> common history perf (name_of a) (name_of b) <> [] ->
            exists h, In h links /\ ((hl_work h = a /\ hl_pred h = b) \/ (hl_work h = b /\ hl_pred h = a))).
  Proof.
    intros Hnd. destruct (pairs_nodup works Hnd) as [Hp1 Hp2].
    exists (flat_map found (pairs works)). split; [|split; [|split]].
    - unfold get_all_seq_statistic. rewrite (map_res_ok _ found) by (intros; apply pair_links_ok). cbn [bind].
      rewrite flat_map_concat_map. reflexivity.
    - apply nodup_flat; [exact Hp1| |].
      + intros [a b] _. destruct (found (a, b)) as [|h r] eqn:E; [constructor|].
        destruct (found_spec a b h) as (_ & _ & E' & _); [rewrite E; left; reflexivity|]. rewrite E in E'. injection E' as ->.
        cbn. constructor; [intros []|constructor].
      + intros [a b] [c d] h h' Hx Hy Hb Hc [= E1 E2].
        destruct (found_spec _ _ _ Hb) as (_ & _ & _ & H1). destruct (found_spec _ _ _ Hc) as (_ & _ & _ & H2).
        destruct (Hp2 _ _ Hx) as (_ & _ & _ & N1).
        destruct H1 as [(A1 & A2 & _)|(A1 & A2 & _)], H2 as [(B1 & B2 & _)|(B1 & B2 & _)]; try congruence;
          exfalso; apply N1; rewrite <- A1, <- A2, E1, E2, B1, B2; exact Hy.
    - intros h Hh. apply in_flat_map in Hh as ([a b] & Hab & Hh). destruct (found_spec _ _ _ Hh) as (F1 & F2 & F3 & F4).
      destruct (Hp2 _ _ Hab) as (P1 & P2 & P3 & P4).
      assert (U : forall h', In h' (flat_map found (pairs works)) -> ~ (hl_work h' = hl_pred h /\ hl_pred h' = hl_work h)).
      { intros h' Hh' [C1 C2]. apply in_flat_map in Hh' as ([c d] & Hcd & Hh'). destruct (found_spec _ _ _ Hh') as (_ & _ & G3 & G4).
        assert (E : (c, d) = (a, b)).
        { destruct F4 as [(A1 & A2 & _)|(A1 & A2 & _)], G4 as [(B1 & B2 & _)|(B1 & B2 & _)];
            try congruence; exfalso; apply P4; rewrite <- A1, <- A2, <- C1, <- C2, B1, B2; exact Hcd. }
        injection E as -> ->. assert (h' = h) as -> by congruence. intuition congruence. }
      destruct F4 as [(A1 & A2 & A3)|(A1 & A2 & A3)]; rewrite A1, A2 in *;
        (split; [assumption|split; [assumption|split; [congruence|split; [exact A3|]]]]); intros h' Hh' C1 C2; exact (U h' Hh' (conj C1 C2)).
    - intros a b Ha Hb Hn Ho.
      assert (G : forall a b, In (a, b) (pairs works) -> name_of a <> name_of b -> occs a b <> [] ->
        exists h, In h (flat_map found (pairs works)) /\ ((hl_work h = a /\ hl_pred h = b) \/ (hl_work h = b /\ hl_pred h = a))).
      { intros x y Hxy Hn' Ho'. destruct (pair_links_spec x y Hn') as [_ H2]. destruct (H2 Ho') as (h & E & H). exists h. split; [|tauto].
        apply in_flat_map. exists (x, y). split; [exact Hxy|]. unfold found. rewrite E. left. reflexivity. }
      destruct (pairs_all works a b Ha Hb ltac:(congruence)) as [H|H].
      + apply G; assumption.
      + destruct (G b a H) as (h & Hh & H'); [congruence| |exists h; tauto].
        unfold occs. rewrite (common_turned history perf (name_of a) (name_of b)). intros C. apply map_eq_nil in C. congruence.
  Qed.
End Links.
Print Assumptions history_links.

(** ** Concrete cases *)
Definition ex_name (s : str) : nat :=
  if str_eqb s (lit "a") then 1%nat else if str_eqb s (lit "b") then 2%nat else if str_eqb s (lit "c") then 3%nat else 4%nat.
Definition both (site : nat) (s1 f1 s2 f2 : Z) : list hrow :=
  [Hrow site 1 (Some s1) (Some f1); Hrow site 2 (Some s2) (Some f2)].
(** Two performances of a and three of b at one site, one of each at another; c has no common
    occurrence with days. *)
Definition ex_history : list hrow :=
  [Hrow 5 2 (Some 30) (Some 44); Hrow 5 1 (Some 20) (Some 28); Hrow 5 1 (Some 0) (Some 8); Hrow 5 2 (Some 2) (Some 9);
   Hrow 6 3 None (Some 7); Hrow 6 2 (Some 4) (Some 6); Hrow 6 1 (Some 1) (Some 9); Hrow 5 2 None None].
Definition ex_perf (site n : nat) : list days := map days_of (performed ex_history site n).
Example history_links_ex :
  NoDup [lit "b"; lit "a"; lit "c"]
  /\ (forall site n, performances ex_history site n (ex_perf site n))
  /\ common ex_history ex_perf 1 2 = [(1, 9, 4, 6); (0, 8, 2, 9); (20, 28, 30, 44)]
  /\ common ex_history ex_perf 1 3 = []
  /\ (forall o, In o (common ex_history ex_perf 1 2) -> regular o)
  /\ get_all_seq_statistic ex_history ex_name [lit "b"; lit "a"; lit "c"]
     = Ok [Hlink (lit "b") (lit "a") FFS (25 # 100) 3].
Proof.
  split; [vm_compute; repeat constructor; cbn; intuition discriminate|]. split; [intros; apply performed_performances|].
  assert (E : common ex_history ex_perf 1 2 = [(1, 9, 4, 6); (0, 8, 2, 9); (20, 28, 30, 44)]) by (vm_compute; reflexivity).
  rewrite E. split; [reflexivity|]. split; [vm_compute; reflexivity|]. split; [|vm_compute; reflexivity].
  intros o Ho. cbn in Ho. repeat destruct Ho as [<-|Ho]; [..|destruct Ho]; cbn; lia.
Qed.

(** Finding: if two works always start together, the one that comes first in the table is made
    the predecessor of the other, whichever it is; even the type of the link changes. *)
Theorem direction_by_row_order :
  get_all_seq_statistic (both 5 0 8 0 9) ex_name [lit "a"; lit "b"] = Ok [Hlink (lit "b") (lit "a") FFS (12 # 100) 1]
  /\ get_all_seq_statistic (both 5 0 8 0 9) ex_name [lit "b"; lit "a"] = Ok [Hlink (lit "a") (lit "b") SS (11 # 100) 1].
Proof. vm_compute. auto. Qed.
Print Assumptions direction_by_row_order.
(** Finding: an occurrence with the same days counts twice for the first work: here b precedes
    a twice and never follows it, but is made its successor. *)
Theorem same_days_count_twice :
  get_all_seq_statistic (both 5 10 20 0 10 ++ both 6 10 20 0 10 ++ both 7 0 8 0 8) ex_name [lit "a"; lit "b"]
  = Ok [Hlink (lit "b") (lit "a") FFS (1 # 100) 3].
Proof. vm_compute. reflexivity. Qed.
Print Assumptions same_days_count_twice.
(** Finding: a single overlapping occurrence makes the link FFS, whatever the number of
    occurrences one after the other, as long as more than those within each other. *)
Theorem overlap_outvotes (within sequential overlapping : Z) :
  within < sequential -> 0 < overlapping -> the_type sequential within overlapping = FFS.
Proof.
  intros H1 H2. unfold the_type. destruct (Z.ltb_spec within sequential); [|lia]. destruct (Z.ltb_spec 0 overlapping); [reflexivity|lia].
Qed.
Print Assumptions overlap_outvotes.
Example overlap_outvotes_ex :
  get_all_seq_statistic (both 5 0 8 8 9 ++ both 6 0 8 9 10 ++ both 7 0 8 8 12 ++ both 8 0 8 6 12) ex_name [lit "a"; lit "b"]
  = Ok [Hlink (lit "b") (lit "a") FFS (75 # 100) 4].
Proof. vm_compute. reflexivity. Qed.
