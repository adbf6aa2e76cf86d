(** Theorems about the supply of materials. *)
From Coq Require Import ZArith List Bool Lia Arith Sorted ZifyBool ZifyNat.
From Verif Require Import TimeModel MomentumSpec SupplyModel SupplySpec SupplyProofs SupplyProofs2 SupplyProofs3 SupplyProofs4 SupplyProofs5
  LandscapeModel LandscapeProofs LandscapeTheorems.
Import ListNotations.
Local Open Scope Z_scope.

(** C74. Whatever is asked for, no assertion fails and no other error occurs; no depot gives
    out more of a material than it had, no road carries more vehicles than it may. *)
Theorem supply_never_overdraws route overcome holders storage stock vehicles bandwidth material round_trip horizon calls :
  landscape_ok route overcome holders stock vehicles bandwidth round_trip -> 0 <= round_trip -> 0 <= horizon ->
  (forall c, In c calls -> call_ok storage material horizon c) ->
  horizon + Z.of_nat (length calls) * (horizon + Z.of_nat (length calls) * round_trip) < TIME_INF ->
  exists out s, history_of route overcome holders storage (start_supply stock vehicles bandwidth material) calls = Fine (out, s) /\
    (forall h m, taken h m (deliveries out) <= match stock h m with Some n => n | None => 0 end) /\
    (forall r t, traffic r (deliveries out) t <= bandwidth r).
Proof.
  intros HL Hrt Hh Hc Hb.
  destruct (history_ok route overcome holders storage stock vehicles bandwidth material round_trip HL horizon calls Hrt Hh Hc _ _ _ _ horizon horizon
    (start_ok route overcome holders stock vehicles bandwidth material round_trip HL horizon) ltac:(lia) ltac:(lia) Hb)
    as (out & s & mb & vb & rb & M & V & E & S & E1 & E2 & _).
  exists out, s. split; [exact E|]. split.
  - intros h m. specialize (E1 h m). simpl in E1. assert (G := so_mats _ _ _ _ _ _ _ _ _ _ S h m). destruct (stock h m) as [n|], (su_mats s h m) as [l|]; try contradiction.
    + destruct G as (_ & _ & G). lia.
    + rewrite G in E1. simpl in E1. lia.
  - intros r t. specialize (E2 r t). simpl in E2. destruct (so_roads _ _ _ _ _ _ _ _ _ _ S r) as (_ & _ & G). specialize (G t). lia.
Qed.
Print Assumptions supply_never_overdraws.

(** C75. Every answer is a time at or after the one asked for; a delivery comes over the roads
    of its route, one after the other, and is there at that time. *)
Theorem deliveries_travel route overcome holders storage stock vehicles bandwidth material round_trip horizon calls out s :
  landscape_ok route overcome holders stock vehicles bandwidth round_trip -> 0 <= round_trip -> 0 <= horizon ->
  (forall c, In c calls -> call_ok storage material horizon c) ->
  horizon + Z.of_nat (length calls) * (horizon + Z.of_nat (length calls) * round_trip) < TIME_INF ->
  history_of route overcome holders storage (start_supply stock vehicles bandwidth material) calls = Fine (out, s) ->
  forall e, In e out -> In (fst (fst e)) calls /\ answered route overcome holders e.
Proof.
  intros HL Hrt Hh Hc Hb E.
  destruct (history_ok route overcome holders storage stock vehicles bandwidth material round_trip HL horizon calls Hrt Hh Hc _ _ _ _ horizon horizon
    (start_ok route overcome holders stock vehicles bandwidth material round_trip HL horizon) ltac:(lia) ltac:(lia) Hb)
    as (out' & s' & mb & vb & rb & M & V & E' & _ & _ & _ & A).
  rewrite E in E'. injection E' as <- <-. exact A.
Qed.
Print Assumptions deliveries_travel.

(** C76. The earliest time found for a work is accepted for it, and materials asked for at
    that time are there at exactly that time; provided that no other work takes materials from
    the platform in between. *)
Theorem material_time_accepted route overcome holders storage stock vehicles bandwidth material round_trip horizon calls out s p t needs T :
  landscape_ok route overcome holders stock vehicles bandwidth round_trip -> 0 <= round_trip -> 0 <= t ->
  (forall c, In c (calls ++ [Call p T needs]) -> call_ok storage material horizon c) ->
  horizon + Z.of_nat (S (length calls)) * (horizon + Z.of_nat (S (length calls)) * round_trip) < TIME_INF ->
  history_of route overcome holders storage (start_supply stock vehicles bandwidth material) calls = Fine (out, s) ->
  find_min_material_time route overcome holders storage s p t needs = Fine T ->
  (forall c o u, In (c, o, u) out -> c_platform c = p -> u <= t \/ T < u) ->
  t <= T /\ can_schedule route overcome holders storage s p T needs = Fine true /\
  exists o s', deliver route overcome holders storage s p T needs = Fine (o, T, s').
Proof.
  intros HL Hrt Ht Hc Hb E Hmin Hq.
  assert (Hcall : call_ok storage material horizon (Call p T needs)) by (apply Hc, in_or_app; right; left; reflexivity).
  assert (Hh : 0 <= horizon) by (destruct Hcall as [G _]; simpl in G; lia).
  destruct (min_time_again route overcome holders storage s p t needs T) as (H1 & H2 & H3).
  - apply (history_plat route overcome holders storage calls _ out s (start_plat stock vehicles bandwidth material) E).
  - exact Ht.
  - exact Hmin.
  - right. intros m n l e Hm Hl He. destruct (history_events route overcome holders storage calls p _ out s E m l e Hl He) as [(l0 & H1 & H2)|(c & o & H1 & H2)].
    + left. cbn [start_supply su_plat] in H1. destruct (material p m); [|discriminate]. injection H1 as <-. destruct H2 as [<-|[]]. simpl. lia.
    + apply (Hq c o _ H1 H2).
  - split; [exact H1|]. split; [exact H2|]. apply deliver_exact; [exact H3|]. intros Ecr.
    assert (Hlen : length (calls ++ [Call p T needs]) = Datatypes.S (length calls)) by (rewrite app_length; simpl; lia). rewrite <- Hlen in Hb.
    destruct (supply_never_overdraws route overcome holders storage stock vehicles bandwidth material round_trip horizon (calls ++ [Call p T needs]) HL Hrt Hh Hc Hb) as (out' & s' & E' & _).
    rewrite (history_last route overcome holders storage calls (Call p T needs) _ out s E Ecr) in E'. discriminate.
Qed.
Print Assumptions material_time_accepted.

(** C77. Works that need one material of a platform and come one after the other find it as
    it should be: what is there is used, and a delivery comes exactly if it does not suffice
    and then fills the storage. *)
Theorem platform_stock_kept route overcome holders storage stock vehicles bandwidth material p m n0 calls out s :
  history_of route overcome holders storage (start_supply stock vehicles bandwidth material) calls = Fine (out, s) ->
  (forall c, In c calls -> c_platform c = p -> c_needs c = [] \/ exists n, c_needs c = [(m, n)] /\ 0 <= n <= storage p m) ->
  material p m = Some n0 -> 0 <= n0 <= storage p m -> chronological 0 (at_platform p out) ->
  stock_book m (storage p m) n0 (at_platform p out).
Proof.
  intros E Hc Hm Hn Hch. apply (stock_book_ok route overcome holders storage p m calls _ out s 0 n0 (unused n0) E Hc Hch).
  - cbn [start_supply su_plat]. rewrite Hm. reflexivity.
  - split; [intros e [<-|[]]; simpl; lia|]. exists (Ev 0 n0). split; reflexivity.
  - exact Hn.
Qed.
Print Assumptions platform_stock_kept.

(** The routes of a landscape as they are built from its roads (C60): no road twice, and wide
    enough. *)
Theorem routes_of_landscape n joins bandwidth k a b : good_roads n joins -> (a < n)%nat -> (b < n)%nat -> a <> b ->
  route_ok bandwidth k (site_route n joins bandwidth k a b).
Proof. apply site_route_ok. Qed.
Print Assumptions routes_of_landscape.

(** Non-vacuity: two depots (nodes 0 and 3), a crossing (1), a platform (2). *)
Definition sm_joins : list (nat * nat * Z) := [rd3 0 1 2; rd3 1 2 3; rd3 3 2 4].
Lemma sm_good : good_roads 4 sm_joins.
Proof.
  assert (C : forall k u v w, joined sm_joins k u v w -> In (k, u, v, w) [rd4 0 0 1 2; rd4 1 1 2 3; rd4 2 3 2 4; rd4 0 1 0 2; rd4 1 2 1 3; rd4 2 2 3 4]).
  { intros k u v w [H|H]; do 4 (destruct k as [|k]; [cbn in H; try discriminate; injection H as <- <- <-; simpl; auto 10|]); cbn in H; destruct k; discriminate. }
  constructor.
  - intros k u v w H. apply C in H. simpl in H. repeat destruct H as [H|H]; try (injection H as <- <- <- <-; lia). destruct H.
  - intros k u v w H. apply C in H. simpl in H. repeat destruct H as [H|H]; try (injection H as <- <- <- <-; lia). destruct H.
  - intros k u v w H. apply C in H. simpl in H. repeat destruct H as [H|H]; try (injection H as <- <- <- <-; lia). destruct H.
  - intros k k' u v w w' H H'. apply C in H. apply C in H'. simpl in H, H'.
    decompose [or] H; clear H; try contradiction; match goal with E : rd4 _ _ _ _ = _ |- _ => injection E as <- <- <- <- end;
      decompose [or] H'; clear H'; try contradiction; match goal with E : rd4 _ _ _ _ = _ |- _ => injection E; intros; subst; try reflexivity; discriminate end.
Qed.
Definition sm_bandwidth (r : nat) : Z := match r with 0%nat | 1%nat => 2 | _ => 1 end.
Definition sm_overcome (r : nat) : Z := match r with 0%nat => 2 | 1%nat => 3 | _ => 4 end.
Definition sm_depot0 : depot := Depot 0 2 [(0%nat, 25)].
Definition sm_depot3 : depot := Depot 3 1 [(0%nat, 50)].
Definition sm_holders (p : nat) : list depot := match p with 2%nat => [sm_depot3; sm_depot0] | _ => [] end.
Definition sm_stock (h m : nat) : option Z := match h, m with 0%nat, 0%nat => Some 100 | 3%nat, 0%nat => Some 60 | _, _ => None end.
Definition sm_vehicles (h : nat) : Z := match h with 0%nat => 2 | 3%nat => 1 | _ => 0 end.
Definition sm_material (p m : nat) : option Z := match p, m with 2%nat, 0%nat => Some 10 | _, _ => None end.
Definition sm_storage (p m : nat) : Z := 50.
Definition sm_route := site_route 4 sm_joins sm_bandwidth.
Lemma sm_routes k a b : sm_route k a b = if k <=? 1 then sm_route 1 a b else if k <=? 2 then sm_route 2 a b else sm_route 3 a b.
Proof.
  unfold sm_route, site_route, wide_roads. cbn [length sm_joins seq filter sm_bandwidth].
  destruct (Z.leb_spec k 1), (Z.leb_spec k 2); try lia; reflexivity.
Qed.
Lemma sm_landscape : landscape_ok sm_route sm_overcome sm_holders sm_stock sm_vehicles sm_bandwidth 10.
Proof.
  assert (Hd : forall p d, In d (sm_holders p) -> p = 2%nat /\ (d = sm_depot3 \/ d = sm_depot0)).
  { intros p d. do 3 (destruct p as [|p]; simpl; [try contradiction|]); [|contradiction]. intros [<-|[<-|[]]]; auto. }
  constructor.
  - intros r. destruct r as [|[|r]]; reflexivity.
  - intros k p d H. apply Hd in H as [-> [->| ->]]; split; apply site_route_ok; try apply sm_good; simpl; lia.
  - intros r. destruct r as [|[|r]]; simpl; lia.
  - intros k p d H. apply Hd in H as [-> [->| ->]]; rewrite !(sm_routes k); destruct (k <=? 1); [|destruct (k <=? 2)| |destruct (k <=? 2)]; vm_compute; discriminate.
  - intros p d H. apply Hd in H as [-> [->| ->]]; split; reflexivity.
  - intros p d H. apply Hd in H as [-> [->| ->]]; (split; [intros m q [[= <- <-]|[]]; reflexivity|]); intros m n Hm; simpl in Hm; destruct m as [|m]; try discriminate; eexists; left; reflexivity.
  - intros h m n. unfold sm_stock. destruct h as [|[|[|[|h]]]]; try discriminate; destruct m; try discriminate; intros [= <-]; lia.
  - intros h. unfold sm_vehicles. destruct h as [|[|[|[|h]]]]; lia.
Qed.
Definition sm_calls : list call := [Call 2 10 [(0%nat, 30)]; Call 2 11 [(0%nat, 15)]; Call 2 11 [(0%nat, 30)]; Call 2 18 [(0%nat, 50)]; Call 2 30 [(0%nat, 40)]].
Lemma sm_calls_ok : forall c, In c sm_calls -> call_ok sm_storage sm_material 50 c.
Proof.
  intros c H. simpl in H. repeat destruct H as [<-|H]; try contradiction; (split; [simpl; lia|]; split; [simpl; constructor; [intros []|constructor]|]; intros m n [[= <- <-]|[]]; split; [unfold sm_storage; lia|discriminate]).
Qed.
Definition sm_start := start_supply sm_stock sm_vehicles sm_bandwidth sm_material.
Definition seen (o : outcome (list SupplySpec.entry * supply)) : option (list (Z * option (nat * Z * Z * request))) :=
  match o with
  | Fine (out, _) => Some (map (fun e => (snd e, option_map (fun x => (dl_depot x, dl_leaves x, dl_arrives x, dl_mats x)) (snd (fst e)))) out)
  | _ => None
  end.
Example supply_never_overdraws_example : 0 <= 10 /\ 0 <= 50 /\ 50 + Z.of_nat (length sm_calls) * (50 + Z.of_nat (length sm_calls) * 10) < TIME_INF /\
  seen (history_of sm_route sm_overcome sm_holders sm_storage sm_start sm_calls) =
    Some [(10, Some (0%nat, 5, 10, [(0%nat, 40)])); (11, None); (16, Some (0%nat, 2, 16, [(0%nat, 45)])); (18, Some (3%nat, 14, 18, [(0%nat, 30)]))].
Proof. split; [lia|]. split; [lia|]. split; [reflexivity|]. vm_compute. reflexivity. Qed.
(** The last call is refused: no depot has 50 left. *)
Example supply_never_overdraws_used : exists out s, history_of sm_route sm_overcome sm_holders sm_storage sm_start sm_calls = Fine (out, s) /\
  taken 0 0 (deliveries out) <= 100 /\ taken 3 0 (deliveries out) <= 60 /\ forall t, traffic 1 (deliveries out) t <= 2.
Proof.
  destruct (supply_never_overdraws sm_route sm_overcome sm_holders sm_storage sm_stock sm_vehicles sm_bandwidth sm_material 10 50 sm_calls sm_landscape ltac:(lia) ltac:(lia) sm_calls_ok ltac:(reflexivity)) as (out & s & E & H1 & H2).
  exists out, s. split; [exact E|]. split; [apply (H1 0%nat 0%nat)|]. split; [apply (H1 3%nat 0%nat)|]. intros t. apply (H2 1%nat t).
Qed.
Definition fine_time (o : outcome (option delivery * Z * supply)) : option Z := match o with Fine (_, t, _) => Some t | _ => None end.
(** After the first work, which has its materials at 10: for another one from time 1 on. *)
Example material_time_accepted_example : match history_of sm_route sm_overcome sm_holders sm_storage sm_start (firstn 1 sm_calls) with
  | Fine (out, s) => find_min_material_time sm_route sm_overcome sm_holders sm_storage s 2 1 [(0%nat, 30)] = Fine 4 /\ map snd out = [10] /\
      can_schedule sm_route sm_overcome sm_holders sm_storage s 2 1 [(0%nat, 30)] = Fine false /\
      fine_time (deliver sm_route sm_overcome sm_holders sm_storage s 2 4 [(0%nat, 30)]) = Some 4
  | _ => False end.
Proof. vm_compute. auto. Qed.
Example platform_stock_kept_example : match history_of sm_route sm_overcome sm_holders sm_storage sm_start sm_calls with
  | Fine (out, s) => chronological 0 (at_platform 2 out) /\ stock_book 0 (sm_storage 2 0) 10 (at_platform 2 out) /\ length (at_platform 2 out) = 4%nat
  | _ => False end.
Proof.
  destruct (history_of sm_route sm_overcome sm_holders sm_storage sm_start sm_calls) as [[out s]| |] eqn:E; [|vm_compute in E; discriminate|vm_compute in E; discriminate].
  assert (Hch : chronological 0 (at_platform 2 out) /\ length (at_platform 2 out) = 4%nat).
  { vm_compute in E. injection E as <- _. vm_compute. repeat split; discriminate. }
  split; [apply Hch|]. split; [|apply Hch].
  apply (platform_stock_kept sm_route sm_overcome sm_holders sm_storage sm_stock sm_vehicles sm_bandwidth sm_material 2 0 10 sm_calls out s E); [|reflexivity|unfold sm_storage; lia|apply Hch].
  intros c H _. right. simpl in H. repeat destruct H as [<-|H]; try contradiction; eexists; (split; [reflexivity|unfold sm_storage; simpl; lia]).
Qed.

(** ** Findings *)
Definition all_roads (l : list nat) : Z -> nat -> nat -> list nat := fun _ _ _ => l.
Definition one_depot (vehicles carries : Z) : nat -> list depot := fun _ => [Depot 0 vehicles [(0%nat, carries); (1%nat, carries)]].
Definition run (vehicles carries overcome : Z) (have : nat -> option Z) (calls : list call) :=
  history_of (all_roads [0%nat]) (fun _ => overcome) (one_depot vehicles carries) (fun _ _ => 100)
    (start_supply (fun _ _ => Some 1000) (fun _ => vehicles) (fun _ => 5) (fun _ m => have m)) calls.
(** The vehicles of a depot are never booked: its only vehicle drives twice at the same time. *)
Theorem vehicles_never_booked : match run 1 100 3 (fun _ => Some 0) [Call 1 3 [(0%nat, 60)]; Call 2 3 [(0%nat, 60)]] with
  | Fine (out, _) => map (fun x => (dl_depot x, dl_leaves x, dl_arrives x)) (deliveries out) = [(0%nat, 0, 3); (0%nat, 0, 3)] /\ traffic 0 (deliveries out) 1 = 2
  | _ => False end.
Proof. vm_compute. auto. Qed.
Print Assumptions vehicles_never_booked.
(** A depot with too few vehicles delivers all the same: 100 units in one vehicle for 10. *)
Theorem overloaded_vehicle : match run 1 10 3 (fun _ => Some 0) [Call 1 3 [(0%nat, 60)]] with
  | Fine (out, _) => map (fun x => (dl_mats x, map b_count (on_road 0 (dl_roads x)))) (deliveries out) = [([(0%nat, 100)], [1; 1])]
  | _ => False end.
Proof. vm_compute. auto. Qed.
Print Assumptions overloaded_vehicle.
(** Works that are not in the order of time take the same material twice: 60 at time 10 and
    60 at time 5 from a stock of 100, with no delivery. *)
Theorem stock_used_twice : seen (run 1 100 3 (fun _ => Some 100) [Call 1 10 [(0%nat, 60)]; Call 1 5 [(0%nat, 60)]]) = Some [(10, None); (5, None)].
Proof. vm_compute. reflexivity. Qed.
Print Assumptions stock_used_twice.
(** A material that is in stock is not deducted if another one of the same work has to be
    delivered: a stock of 100 serves two works that need 80. *)
Theorem stock_not_deducted :
  seen (run 1 100 3 (fun m => match m with 0%nat => Some 100 | _ => Some 0 end) [Call 1 5 [(0%nat, 80); (1%nat, 80)]; Call 1 20 [(0%nat, 80)]]) =
    Some [(5, Some (0%nat, 2, 5, [(1%nat, 100)])); (20, None)].
Proof. vm_compute. reflexivity. Qed.
Print Assumptions stock_not_deducted.
(** A road of length 0 takes no time, and every booking takes its bandwidth for ever: the
    bandwidth 5 suffices for two deliveries of one vehicle there and back; the assertion fails
    in the third. *)
Theorem instant_road_lost : let calls := [Call 1 3 [(0%nat, 60)]; Call 1 5 [(0%nat, 60)]; Call 1 9 [(0%nat, 60)]] in
  option_map (@length _) (seen (run 3 100 0 (fun _ => Some 0) (firstn 2 calls))) = Some 2%nat /\ run 3 100 0 (fun _ => Some 0) calls = Crashed.
Proof. vm_compute. auto. Qed.
Print Assumptions instant_road_lost.
