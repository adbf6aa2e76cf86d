(** C118: the priority queue. *)
From Coq Require Import ZArith List Bool Arith Permutation Lia.
From Verif Require Import PriorityQueueModel.
Import ListNotations.
Local Open Scope Z_scope.

(** ** Specification: a bag of values *)
(** No value of the bag comes before [v]: the greatest keys come first, the least with [descending]. *)
Definition extremal (descending : bool) (key : nat -> Z) (v : nat) (bag : list nat) : Prop :=
  forall x, In x bag -> if descending then key v <= key x else key x <= key v.
Inductive allowed (descending : bool) (key : nat -> Z) : op -> list nat -> answer -> list nat -> Prop :=
| al_add v bag bag' : Permutation bag' (v :: bag) -> allowed descending key (Add v) bag Done bag'
| al_extract v bag bag' : Permutation bag (v :: bag') -> extremal descending key v bag -> allowed descending key Extract bag (Value v) bag'
| al_empty : allowed descending key Extract [] IndexError []
| al_replace a b bag rest bag' : Permutation bag (a :: rest) -> Permutation bag' (b :: rest) -> allowed descending key (Replace a b) bag Done bag'
| al_replace_new a b bag bag' : ~ In a bag -> Permutation bag' (b :: bag) -> allowed descending key (Replace a b) bag Done bag'
| al_decrease v bag bag' : In v bag -> Permutation bag' bag -> allowed descending key (Decrease v) bag Done bag'
| al_decrease_new v bag bag' : ~ In v bag -> Permutation bag' (v :: bag) -> allowed descending key (Decrease v) bag Done bag'
| al_length bag bag' : Permutation bag' bag -> allowed descending key Length bag (Number (List.length bag)) bag'.
Inductive behaves (descending : bool) (key : nat -> Z) : list op -> list nat -> list answer -> list nat -> Prop :=
| be_end bag : behaves descending key [] bag [] bag
| be_call o r bag a bag' l bag'' : allowed descending key o bag a bag' -> behaves descending key r bag' l bag'' -> behaves descending key (o :: r) bag (a :: l) bag''.

(** ** Proofs *)
Definition values (q : queue) : list nat := map (fun e => snd (snd e)) q.
Section Proofs.
  Variables (d : bool) (key : nat -> Z).
  Inductive ordered : queue -> Prop :=
  | or_nil : ordered []
  | or_cons e q : (forall x, In x q -> fst e <= fst x) -> ordered q -> ordered (e :: q).
  Definition kept (q : queue) : Prop := ordered q /\ forall e, In e q -> e = entry_of d key (snd (snd e)).
  Lemma insert_perm e q : Permutation (insert_right e q) (e :: q).
  Proof. induction q as [|x q IH]; cbn; [reflexivity|]. destruct (_ <=? _); [|reflexivity]. rewrite IH. apply perm_swap. Qed.
  Lemma insert_ordered e q : ordered q -> ordered (insert_right e q).
  Proof.
    induction 1 as [|x q H O IH]; cbn; [constructor; [intros x []|constructor]|]. destruct (Z.leb_spec (fst x) (fst e)).
    - constructor; [|exact IH]. intros y Hy. apply (Permutation_in _ (insert_perm e q)) in Hy as [<-|Hy]; auto.
    - constructor; [|constructor; assumption]. intros y [<-|Hy]; [lia|]. apply H in Hy. lia.
  Qed.
  Lemma add_kept v q : kept q -> kept (add d key v q) /\ Permutation (values (add d key v q)) (v :: values q).
  Proof.
    intros [O K]. split; [split; [apply insert_ordered, O|]|].
    - intros e He. apply (Permutation_in _ (insert_perm _ q)) in He as [<-|He]; [reflexivity|auto].
    - unfold values, add. rewrite (insert_perm (entry_of d key v) q). reflexivity.
  Qed.
  Lemma new_kept l : kept (new d key l) /\ Permutation (values (new d key l)) l.
  Proof.
    assert (G : forall l q, kept q -> kept (fold_left (fun q v => add d key v q) l q) /\ Permutation (values (fold_left (fun q v => add d key v q) l q)) (l ++ values q)).
    { clear l. induction l as [|v l IH]; intros q K; cbn [fold_left app]; [split; [exact K|reflexivity]|]. destruct (add_kept v q K) as [K' P]. destruct (IH _ K') as [A B]. split; [exact A|]. rewrite B, P. symmetry. apply Permutation_middle. }
    destruct (G l []) as [A B]; [split; [constructor|intros e []]|]. rewrite app_nil_r in B. auto.
  Qed.
  Lemma ordered_app q e : ordered (q ++ [e]) -> ordered q /\ forall x, In x q -> fst x <= fst e.
  Proof.
    induction q as [|y q IH]; cbn; [intros _; split; [constructor|intros x []]|]. intros O. inversion O as [|e0 q0 H1 H2]; subst. destruct (IH H2) as [A B]. split.
    - constructor; [intros x Hx; apply H1, in_or_app; left; exact Hx|exact A].
    - intros x [<-|Hx]; [apply H1, in_or_app; right; left; reflexivity|auto].
  Qed.
  Lemma discard_kept e q : kept q -> kept (discard e q) /\ (In e q -> Permutation q (e :: discard e q)) /\ (~ In e q -> discard e q = q).
  Proof.
    assert (R : forall x, same e x = true <-> e = x).
    { intros [c [k v]]. destruct e as [c' [k' v']]. unfold same. cbn. rewrite !andb_true_iff, !Z.eqb_eq, Nat.eqb_eq. split; [intros [[-> ->] ->]; reflexivity|intros E; injection E as -> -> ->; auto]. }
    assert (I : forall x q, In x (discard e q) -> In x q). { intros x. induction q0 as [|y q0 IH]; cbn; [auto|]. destruct (same e y); [auto|]. intros [<-|H]; auto. }
    intros [O K]. split; [split; [|intros x Hx; apply K, (I x), Hx]|].
    - clear K. induction O as [|y q H O IH]; cbn; [constructor|]. destruct (same e y); [exact O|]. constructor; [intros x Hx; apply H, I, Hx|exact IH].
    - clear K O. induction q as [|y q [IH1 IH2]]; cbn; [split; [intros []|reflexivity]|]. destruct (same e y) eqn:E.
      + apply R in E as <-. split; [reflexivity|]. intros H. exfalso. apply H. left. reflexivity.
      + assert (N : e <> y) by (intros N; apply R in N; congruence). split.
        * intros [H|H]; [congruence|]. rewrite (IH1 H) at 1. apply perm_swap.
        * intros H. f_equal. apply IH2. intros H'. apply H. right. exact H'.
  Qed.
  Lemma kept_in v q : kept q -> In v (values q) <-> In (entry_of d key v) q.
  Proof. intros [_ K]. unfold values. rewrite in_map_iff. split; [intros (e & <- & H); rewrite <- (K e H); exact H|intros H; exists (entry_of d key v); auto]. Qed.
  Lemma replace_kept a b q : kept q -> kept (replace d key a b q) /\ (In a (values q) -> exists rest, Permutation (values q) (a :: rest) /\ Permutation (values (replace d key a b q)) (b :: rest)) /\
    (~ In a (values q) -> Permutation (values (replace d key a b q)) (b :: values q)).
  Proof.
    intros K. destruct (discard_kept (entry_of d key a) q K) as (K1 & P1 & P2). destruct (add_kept b _ K1) as [K2 P3]. unfold replace. split; [exact K2|]. split.
    - intros H. apply (kept_in a q K) in H. exists (values (discard (entry_of d key a) q)). split; [|exact P3]. specialize (P1 H). apply (Permutation_map (fun e : entry => snd (snd e))) in P1. exact P1.
    - intros H. rewrite P3, P2; [reflexivity|]. intros H'. apply H, (kept_in a q K), H'.
  Qed.
  Lemma call_allowed o q : kept q -> kept (snd (call d key o q)) /\ allowed d key o (values q) (fst (call d key o q)) (values (snd (call d key o q))).
  Proof.
    intros K. destruct o as [v| |a b|v|]; cbn [call fst snd].
    - destruct (add_kept v q K) as [A B]. split; [exact A|]. constructor. exact B.
    - unfold extract_extremum. destruct q as [|e q _] using rev_ind; [split; [exact K|apply al_empty]|]. rewrite rev_app_distr. cbn [rev app]. destruct e as [c [k v]]. cbn [fst snd]. rewrite rev_involutive.
      destruct K as [O K]. apply ordered_app in O as [O1 O2]. split; [split; [exact O1|intros e He; apply K, in_or_app; left; exact He]|]. constructor.
      + unfold values. rewrite map_app. cbn [map snd]. symmetry. apply Permutation_cons_append.
      + assert (E0 := K (c, (k, v)) ltac:(apply in_or_app; right; left; reflexivity)). cbn [snd] in E0. unfold entry_of in E0. injection E0 as Ec Ek.
        intros x Hx. unfold values in Hx. apply in_map_iff in Hx as (e & <- & He). assert (Ee := K e He). assert (L : fst e <= c) by (apply in_app_or in He as [He|[<-|[]]]; [apply O2 in He; exact He|cbn; lia]).
        rewrite Ee in L. rewrite Ec in L. unfold entry_of, comparator in L. cbn [fst] in L. destruct d; lia.
    - destruct (replace_kept a b q K) as (A & B & C). split; [exact A|]. destruct (in_dec Nat.eq_dec a (values q)) as [H|H]; [destruct (B H) as (rest & B1 & B2); eapply al_replace; eauto|apply al_replace_new; auto].
    - unfold decrease_key. destruct (replace_kept v v q K) as (A & B & C). split; [exact A|]. destruct (in_dec Nat.eq_dec v (values q)) as [H|H]; [destruct (B H) as (rest & B1 & B2); apply al_decrease; [exact H|rewrite B2, B1; reflexivity]|apply al_decrease_new; auto].
    - split; [exact K|]. replace (List.length q) with (List.length (values q)) by apply map_length. constructor. reflexivity.
  Qed.

  (** ** C118 *)
  (** Every history of calls on a new queue answers as a bag does: what is added and not taken
      stays, and what is taken out is extremal at that time. *)
  Theorem queue_behaves l ops : exists bag0 bag, Permutation bag0 l /\ behaves d key ops bag0 (fst (run d key ops (new d key l))) bag /\ values (snd (run d key ops (new d key l))) = bag.
  Proof.
    destruct (new_kept l) as [K P]. exists (values (new d key l)). eexists. split; [exact P|]. split; [|reflexivity]. revert K. clear P. generalize (new d key l) as q.
    induction ops as [|o r IH]; intros q K; cbn [run]; [constructor|]. destruct (call_allowed o q K) as [K' A]. destruct (call d key o q) as [a q']. cbn [fst snd] in *. specialize (IH q' K').
    destruct (run d key r q') as [l' q'']. cbn [fst snd] in *. econstructor; eauto.
  Qed.

  (** Of equal keys, the value added last is taken first. *)
  Theorem last_in_first_out l v : extremal d key v l -> exists q, extract_extremum (add d key v (new d key l)) = Some (v, q) /\ Permutation (values q) l.
  Proof.
    intros E. destruct (new_kept l) as [[O K] P]. exists (new d key l). split; [|exact P].
    assert (A : add d key v (new d key l) = new d key l ++ [entry_of d key v]).
    { assert (H : forall e, In e (new d key l) -> fst e <= fst (entry_of d key v)).
      { intros e He. rewrite (K e He). assert (Hv : In (snd (snd e)) l) by (apply (Permutation_in _ P); unfold values; apply (in_map (fun e => snd (snd e))), He). apply E in Hv. unfold entry_of, comparator. cbn [fst]. destruct d; lia. }
      unfold add. clear - H. induction (new d key l) as [|x q IH]; [reflexivity|]. cbn [insert_right app]. assert (Q := H x (in_eq _ _)). apply Z.leb_le in Q. rewrite Q. f_equal. apply IH. intros e He. apply H. right. exact He. }
    unfold extract_extremum. rewrite A, rev_app_distr. cbn. rewrite rev_involutive. reflexivity.
  Qed.
End Proofs.
Print Assumptions queue_behaves.
Print Assumptions last_in_first_out.

(** Finding: decrease_key does not lower anything: if the key of a queued value has changed, the old
    pair is not found, stays, and the value is in the queue twice. *)
Theorem changed_key_duplicates d key key' l v : In v l -> key' v <> key v ->
  Permutation (values (decrease_key d key' v (new d key l))) (v :: l).
Proof.
  intros Hv Hk. destruct (new_kept d key l) as [[O K] P]. unfold decrease_key, replace, add. assert (E : discard (entry_of d key' v) (new d key l) = new d key l).
  { clear O P. induction (new d key l) as [|x q IH]; [reflexivity|]. cbn [discard]. assert (S : same (entry_of d key' v) x = false).
    { rewrite (K x (in_eq _ _)). unfold same, entry_of. cbn [fst snd]. destruct (Nat.eqb_spec v (snd (snd x))) as [<-|]; [|rewrite !andb_false_r; reflexivity]. destruct (Z.eqb_spec (key' v) (key v)); [contradiction|]. rewrite andb_false_r. reflexivity. }
    rewrite S. f_equal. apply IH. intros e He. apply K. right. exact He. }
  rewrite E. unfold values. rewrite (insert_perm (entry_of d key' v) (new d key l)). cbn [map entry_of snd]. constructor. exact P.
Qed.
Print Assumptions changed_key_duplicates.

(** Without [descending] the greatest key comes first. *)
Example greatest_first : fst (run false (fun v => Z.of_nat v) [Add 5; Add 9; Replace 5 7; Extract; Length; Extract; Extract; Extract]%nat (new false (fun v => Z.of_nat v) [3%nat])) =
  [Done; Done; Done; Value 9; Number 2; Value 7; Value 3; IndexError]%nat.
Proof. reflexivity. Qed.
Example least_first : fst (run true (fun v => Z.of_nat (v mod 4)) [Add 5; Add 9; Decrease 5; Extract; Extract; Extract]%nat (new true (fun v => Z.of_nat (v mod 4)) [3%nat])) =
  [Done; Done; Done; Value 5; Value 9; Value 3]%nat.
Proof. reflexivity. Qed.
Example changed_key_example : values (decrease_key true (fun _ => 0) 4 (new true Z.of_nat [4; 2]%nat)) = [4; 2; 4]%nat.
Proof. reflexivity. Qed.
