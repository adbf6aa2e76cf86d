(** C26-C28: genetic operators keep chromosomes valid. *)
From Coq Require Import ZArith List Bool Lia Arith Relations Permutation ZifyBool ZifyNat.
From Verif Require Import ScheduleSpec ScheduleInv Digraph TopoModel TopoProofs GeneticModel GeneticProofs GeneticResModel.
Import ListNotations.
Local Open Scope nat_scope.

(** ** C26, C27: work orders *)
(** The order check accepts exactly the orders in which every work follows its parents (a
    work listed among its own parents is ignored) and no parent has a larger priority. *)
Theorem order_check_exact :
  forall parents prio order, NoDup order ->
    (order_correct parents prio order = true <->
     forall w p, In w order -> In p (parents w) -> (p = w \/ comes_before order p w) /\ (prio p <= prio w)%Z).
Proof.
  intros parents prio order H. unfold order_correct. rewrite (order_correct_loop_spec parents prio order [] H). split.
  - intros G w p Hw Hp. destruct (G w p Hw Hp) as [[H1|[[]|H1]] H2]; auto.
  - intros G w p Hw Hp. destruct (G w p Hw Hp) as [[H1|H1] H2]; auto.
Qed.
Print Assumptions order_check_exact.

(** [order_check prio parents] on orders listing the parents: the relation to respect *)
Definition parent_of (parents : nat -> list nat) (p w : nat) : Prop := p <> w /\ In p (parents w).

(** Order crossover: for every outcome of the random generator, two permutations of the
    same works that list works by priority give two such permutations; and every relation
    between works that both parents respect is respected by both children. *)
Theorem order_crossover_correct :
  forall randint, (forall k lo hi, lo <= hi -> lo <= randint k lo hi <= hi) ->
  forall prio o1 o2, o1 <> [] -> NoDup o1 -> Permutation o2 o1 ->
    topological (fun x y => prio x < prio y)%Z o1 -> topological (fun x y => prio x < prio y)%Z o2 ->
    exists c1 c2, mate_order randint prio o1 o2 = Some (c1, c2) /\ Permutation c1 o1 /\ Permutation c2 o2 /\
      topological (fun x y => prio x < prio y)%Z c1 /\ topological (fun x y => prio x < prio y)%Z c2 /\
      forall R, topological R o1 -> topological R o2 -> topological R c1 /\ topological R c2.
Proof.
  intros randint Hr prio o1 o2 Hne Hnd HP T1 T2. unfold mate_order. destruct o1 as [|w o1']; [congruence|].
  destruct (mate_loop_spec randint Hr prio (length (w :: o1')) 0 (w :: o1') o2 (prio w) eq_refl Hnd HP T1 T2 eq_refl) as (c1 & c2 & E & P1 & P2 & T).
  exists c1, c2. destruct (T _ T1 T2). auto 10.
Qed.
Print Assumptions order_crossover_correct.
(** ... in particular the children pass the order check when the parents do. *)
Theorem order_crossover_accepted :
  forall randint, (forall k lo hi, lo <= hi -> lo <= randint k lo hi <= hi) ->
  forall parents prio o1 o2, o1 <> [] -> NoDup o1 -> Permutation o2 o1 ->
    topological (fun x y => prio x < prio y)%Z o1 -> topological (fun x y => prio x < prio y)%Z o2 ->
    order_correct parents prio o1 = true -> order_correct parents prio o2 = true ->
    exists c1 c2, mate_order randint prio o1 o2 = Some (c1, c2) /\
      order_correct parents prio c1 = true /\ order_correct parents prio c2 = true.
Proof.
  intros randint Hr parents prio o1 o2 Hne Hnd HP T1 T2 C1 C2.
  destruct (order_crossover_correct randint Hr prio o1 o2 Hne Hnd HP T1 T2) as (c1 & c2 & E & P1 & P2 & _ & _ & T).
  assert (Hnd2 : NoDup o2) by (eapply Permutation_NoDup; [apply Permutation_sym; exact HP|exact Hnd]).
  assert (Hn1 : NoDup c1) by (eapply Permutation_NoDup; [apply Permutation_sym; exact P1|exact Hnd]).
  assert (Hn2 : NoDup c2) by (eapply Permutation_NoDup; [apply Permutation_sym; exact P2|exact Hnd2]).
  rewrite order_check_exact in C1, C2 by assumption.
  assert (R1 : topological (parent_of parents) o1) by (intros p w [H1 H2] _ Hw; destruct (C1 w p Hw H2) as [[H|H] _]; tauto).
  assert (R2 : topological (parent_of parents) o2) by (intros p w [H1 H2] _ Hw; destruct (C2 w p Hw H2) as [[H|H] _]; tauto).
  destruct (T _ R1 R2) as [S1 S2]. exists c1, c2. split; [exact E|].
  assert (Hin1 : forall w p, In w o1 -> In p (parents w) -> In p o1).
  { intros w p Hw Hp. destruct (C1 w p Hw Hp) as [[->|H] _]; [exact Hw|]. apply comes_before_in in H. apply H. }
  assert (Hall : forall c, Permutation c o1 -> topological (parent_of parents) c ->
     forall w p, In w c -> In p (parents w) -> (p = w \/ comes_before c p w) /\ (prio p <= prio w)%Z).
  { intros c Pc Tc w p Hw Hp. assert (Hw1 : In w o1) by (eapply Permutation_in; eauto). split; [|apply (C1 w p Hw1 Hp)].
    destruct (Nat.eq_dec p w) as [->|Hnw]; [left; reflexivity|right]. apply Tc; [split; assumption| |exact Hw].
    eapply Permutation_in; [apply Permutation_sym; exact Pc|]. eapply Hin1; eauto. }
  split; apply order_check_exact; auto. apply Hall; auto. eapply Permutation_trans; eauto.
Qed.
Print Assumptions order_crossover_accepted.

(** Order mutation: for every selection of works, every shuffling and every new position
    drawn, the mutated order is a permutation of the works, the priorities stand at the same
    positions, and every relation whose pairs are listed among parents and children stays
    respected. *)
Theorem order_mutation_correct :
  forall selected shuffle pick, (forall k l, Permutation (shuffle k l) l) -> (forall k s l, l <> [] -> In (pick k s l) l) ->
  forall (parents children : nat -> list nat) prio order, order <> [] -> NoDup order ->
    exists order', mutate_order selected shuffle pick parents children prio order = Some order' /\
      Permutation order' order /\ map prio order' = map prio order /\
      forall (R : nat -> nat -> Prop), (forall x y, R x y -> In x order -> In y order -> In x (parents y) /\ In y (children x)) ->
        topological R order -> topological R order'.
Proof.
  intros selected shuffle pick Hs Hp parents children prio order Hne Hnd. unfold mutate_order. destruct order as [|w rest]; [congruence|].
  apply mutate_groups_spec; auto; intros; lia.
Qed.
Print Assumptions order_mutation_correct.
(** The same inside one group, where the first and last work also keep their places. *)
Theorem order_group_mutation_correct :
  forall selected shuffle pick, (forall k l, Permutation (shuffle k l) l) -> (forall k s l, l <> [] -> In (pick k s l) l) ->
  forall (parents children : nat -> list nat) k order, NoDup order ->
    exists order', mutate_core selected shuffle pick parents children k order = Some order' /\
      Permutation order' order /\
      nth_error order' 0 = nth_error order 0 /\ nth_error order' (length order - 1) = nth_error order (length order - 1) /\
      forall (R : nat -> nat -> Prop), (forall x y, R x y -> In x order -> In y order -> In x (parents y) /\ In y (children x)) ->
        topological R order -> topological R order'.
Proof. intros. apply mutate_core_spec; assumption. Qed.
Print Assumptions order_group_mutation_correct.

(** Findings: the last priority group is never mated nor mutated; with equal priorities the
    order operators change nothing, whatever is drawn. *)
Theorem equal_priorities_order_operators_idle :
  forall p o1 o2, o1 <> [] ->
    (forall randint, mate_order randint (fun _ => p) o1 o2 = Some (o1, o2)) /\
    (forall selected shuffle pick parents children, mutate_order selected shuffle pick parents children (fun _ => p) o1 = Some o1).
Proof.
  intros p o1 o2 H. split; intros.
  - unfold mate_order. destruct o1 as [|w o]; [congruence|]. generalize (seq 0 (length (w :: o))) as l.
    induction l as [|i l IH]; cbn [mate_loop]; [reflexivity|]. rewrite Z.eqb_refl. exact IH.
  - unfold mutate_order. destruct o1 as [|w o]; [congruence|]. generalize (seq 0 (length (w :: o))) as l.
    induction l as [|i l IH]; cbn [mutate_groups]; [reflexivity|]. rewrite Z.eqb_refl. exact IH.
Qed.
Print Assumptions equal_priorities_order_operators_idle.
(** Finding: the order check does not ask for works to be listed by priority, and orders it
    accepts can make the crossover raise an error. *)
Theorem order_check_too_weak_for_crossover :
  exists parents prio o1 o2 randint, (forall k lo hi, lo <= hi -> lo <= randint k lo hi <= hi) /\
    Permutation o2 o1 /\ order_correct parents prio o1 = true /\ order_correct parents prio o2 = true /\
    mate_order randint prio o1 o2 = None.
Proof.
  exists (fun w => if Nat.eqb w 0 then [] else [0]), (fun w => if Nat.ltb w 4 then 0%Z else 1%Z), [0; 1; 2; 3; 4; 5], [0; 4; 1; 2; 3; 5], (fun _ _ hi => hi).
  split; [intros; lia|]. split; [|vm_compute; auto].
  apply NoDup_Permutation; [repeat constructor; simpl; intuition lia ..|]. intros x. simpl. intuition.
Qed.
Print Assumptions order_check_too_weak_for_crossover.

(** A concrete case: eight works, two priority groups. *)
Definition gx_parents (w : nat) : list nat := match w with 0 => [] | 1 | 2 | 3 => [0] | 4 => [1] | 5 => [2; 3] | 6 => [4] | _ => [5; 6] end.
Definition gx_children (w : nat) : list nat := filter (fun v => mem w (gx_parents v)) (seq 0 8).
Definition gx_prio (w : nat) : Z := if Nat.ltb w 6 then 0%Z else 1%Z.
Example genetic_order_case :
  order_correct gx_parents gx_prio [0; 1; 2; 3; 4; 5; 6; 7] = true /\
  order_correct gx_parents gx_prio [0; 3; 2; 5; 1; 4; 6; 7] = true /\
  topological (fun x y => gx_prio x < gx_prio y)%Z [0; 1; 2; 3; 4; 5; 6; 7] /\
  mate_order (fun _ lo hi => hi) gx_prio [0; 1; 2; 3; 4; 5; 6; 7] [0; 3; 2; 5; 1; 4; 6; 7]
    = Some ([0; 1; 3; 2; 4; 5; 6; 7], [0; 3; 1; 2; 5; 4; 6; 7]) /\
  mutate_order (fun _ j => Nat.even j) (fun _ l => rev l) (fun _ _ l => last l 0) gx_parents gx_children gx_prio [0; 1; 2; 3; 4; 5; 6; 7]
    = Some [0; 2; 1; 4; 3; 5; 6; 7].
Proof.
  split; [reflexivity|]. split; [reflexivity|]. split; [|split; reflexivity].
  apply topological_nth; [repeat constructor; simpl; intuition lia|]. intros i j x y Hi Hj H.
  destruct (Nat.lt_ge_cases i 8) as [Li|Li]; [|exfalso; assert (Hn : nth_error [0; 1; 2; 3; 4; 5; 6; 7] i = None) by (apply nth_error_None; simpl; lia); congruence].
  destruct (Nat.lt_ge_cases j 8) as [Lj|Lj]; [|exfalso; assert (Hn : nth_error [0; 1; 2; 3; 4; 5; 6; 7] j = None) by (apply nth_error_None; simpl; lia); congruence].
  assert (x = i) by (do 8 (destruct i as [|i]; [simpl in Hi; congruence|]); lia).
  assert (y = j) by (do 8 (destruct j as [|j]; [simpl in Hj; congruence|]); lia).
  subst. unfold gx_prio in H. destruct (Nat.ltb_spec i 6), (Nat.ltb_spec j 6); lia.
Qed.
