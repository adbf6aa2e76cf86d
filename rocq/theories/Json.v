(** Reading back what was written: the general argument about objects of any classes. *)
From Coq Require Import ZArith QArith List Bool String Lia.
From Verif Require Import JsonModel.
Import ListNotations.
Local Open Scope string_scope.
Local Open Scope list_scope.

(** a value that text keeps as it is: no object, no numpy integer, no tuple inside *)
Fixpoint plain (v : val) : bool :=
  match v with
  | VNp _ _ | VTuple _ | VObj _ _ => false
  | VList l => forallb plain l
  | VDict d => forallb (fun e => plain (snd e)) d
  | _ => true
  end.
Fixpoint distinct (l : list string) : bool :=
  match l with [] => true | k :: r => negb (has k r) && distinct r end.
Definition of_class (c : string) (v : val) : bool :=
  match v with VObj c' _ => String.eqb c c' | _ => false end.

Section Classes.
Variable classes : string -> option cdesc.

(** An object whose attributes are what its class says: what a custom serializer is for is a
    list, pair or dictionary of objects of the class it reads; any other attribute is an
    object, a numpy integer or a simple value, which is also [plain] when [text]. *)
Definition ok_field (text : bool) (rec : val -> bool) (d : cdesc) (p : string * val) : bool :=
  let '(k, x) := p in
  has k (ignored d) ||
  match get k (custom d) with
  | Some (KList c) =>
      match x with VList l => forallb (fun v => of_class c v && rec v) l | _ => false end
  | Some (KPair c) =>
      match x with VTuple [a; b] => (of_class c a && rec a) && (of_class c b && rec b) | _ => false end
  | Some (KKeyed c) | Some (KMap c) =>
      match x with
      | VDict kv => forallb (fun e => of_class c (snd e) && rec (snd e)) kv
                    && distinct (map fst kv)
      | _ => false
      end
  | None =>
      match x with
      | VObj c _ => rec x && negb (String.eqb c (np_name false)) && negb (String.eqb c (np_name true))
      | VNp _ _ => true
      | _ => if text then plain x else true
      end
  end.
Fixpoint ok (text : bool) (v : val) : bool :=
  match v with
  | VObj c fs =>
      match classes c with
      | None => false
      | Some d =>
          distinct (map fst fs)
          && negb (has HINTS (map fst fs))
          && forallb (ok_field text (ok text) d) fs
      end
  | _ => false
  end.

(** The object with every attribute its class ignores set to None, there and in the objects
    it holds.  The attributes that are ignored come first. *)
Definition stored_field (rec : val -> val) (d : cdesc) (p : string * val) : list (string * val) :=
  let '(k, x) := p in
  if has k (ignored d) then []
  else
    match get k (custom d), x with
    | Some _, VList l => [(k, VList (map rec l))]
    | Some _, VTuple l => [(k, VTuple (map rec l))]
    | Some _, VDict kv => [(k, VDict (map (fun e => (fst e, rec (snd e))) kv))]
    | None, VObj _ _ => [(k, rec x)]
    | _, _ => [(k, x)]
    end.
Fixpoint stored (v : val) : val :=
  match v with
  | VObj c fs =>
      match classes c with
      | None => v
      | Some d => VObj c (map (fun k => (k, VNone)) (ignored d) ++ flat_map (stored_field stored d) fs)
      end
  | _ => v
  end.

Fixpoint size (v : val) : nat :=
  match v with
  | VList l | VTuple l => S (list_sum (map size l))
  | VDict d => S (list_sum (map (fun e => size (snd e)) d))
  | VObj _ d => S (list_sum (map (fun e => size (snd e)) d))
  | _ => 1
  end.

Lemma in_size : forall A (f : A -> nat) l x, In x l -> (f x <= list_sum (map f l))%nat.
Proof.
  induction l as [|a r IH]; cbn; [easy|]. intros x [<- | Hx]; [lia|].
  specialize (IH x Hx). unfold list_sum in IH. lia.
Qed.
Lemma mapo_all : forall A B (f : A -> option B) (R : A -> B -> Prop) l,
  (forall x, In x l -> exists y, f x = Some y /\ R x y) ->
  exists ys, mapo f l = Some ys /\ Forall2 R l ys.
Proof.
  induction l as [|a r IH]; intros H; cbn; [exists []; now split|].
  destruct (H a (or_introl eq_refl)) as (y & -> & Hy).
  destruct IH as (ys & -> & Hys); [intros; apply H; now right|].
  exists (y :: ys). split; [easy|]. now constructor.
Qed.
Lemma mapo_two : forall A B C (R : A -> B -> Prop) (g : B -> option C) (h : A -> C) l ys,
  Forall2 R l ys -> (forall x y, In x l -> R x y -> g y = Some (h x)) -> mapo g ys = Some (map h l).
Proof.
  induction 1 as [|x y l ys Hxy Hl IH]; intros H; cbn; [easy|].
  rewrite (H x y (or_introl eq_refl) Hxy), IH; [easy|]. intros; apply H; [now right|easy].
Qed.
Lemma forallb_two : forall A B (R : A -> B -> Prop) (p : B -> bool) l ys,
  Forall2 R l ys -> (forall x y, R x y -> p y = true) -> forallb p ys = true.
Proof.
  induction 1; intros Hp; cbn; [easy|]. now rewrite (Hp x y H), IHForall2.
Qed.
Lemma dict_set_new : forall A k (v : A) d, ~ In k (map fst d) -> dict_set k v d = d ++ [(k, v)].
Proof.
  induction d as [|[k' v'] r IH]; intros H; cbn; [easy|].
  destruct (String.eqb_spec k k') as [->|Hne]; [destruct H; now left|].
  rewrite IH; [easy|]. intros Hin. apply H. now right.
Qed.
Lemma dict_of_nodup : forall A (l : list (string * A)), NoDup (map fst l) -> dict_of l = l.
Proof.
  intros A l Hl. unfold dict_of.
  cut (forall acc, NoDup (map fst (acc ++ l)) ->
       fold_left (fun d p => dict_set (fst p) (snd p) d) l acc = acc ++ l).
  { intros H. now apply (H []). }
  induction l as [|[k v] r IH]; intros acc Hacc; cbn; [now rewrite app_nil_r|].
  rewrite dict_set_new.
  2:{ rewrite map_app in Hacc. cbn in Hacc. apply NoDup_remove_2 in Hacc.
      intros Hin. apply Hacc. apply in_or_app. now left. }
  rewrite IH.
  - now rewrite <- app_assoc.
  - now inversion Hl.
  - now rewrite <- app_assoc.
Qed.
Lemma has_in : forall k l, has k l = true <-> In k l.
Proof.
  intros k l. unfold has. rewrite existsb_exists. split.
  - intros (x & Hx & He). apply String.eqb_eq in He. now subst.
  - intros H. exists k. split; [easy|]. apply String.eqb_refl.
Qed.
Lemma has_not : forall k l, has k l = false <-> ~ In k l.
Proof. intros k l. rewrite <- (has_in k l). destruct (has k l); split; congruence. Qed.

Lemma distinct_nodup : forall l, distinct l = true -> NoDup l.
Proof.
  induction l as [|k r IH]; cbn; intros H; [constructor|].
  apply andb_true_iff in H. destruct H as [H1 H2]. constructor; [|now apply IH].
  apply has_not. now apply negb_true_iff.
Qed.
(** the hints of one field are found among those of all fields *)
Lemma get_hint : forall (rs : list (list (string * val) * list (string * val))) (fs : list (string * val)),
  Forall2 (fun p r => fst r = [] \/ exists t, fst r = [(fst p, VStr t)]) fs rs ->
  NoDup (map fst fs) ->
  forall p r, In (p, r) (combine fs rs) -> get (fst p) (flat_map fst rs) = get (fst p) (fst r).
Proof.
  assert (No : forall (rs : list (list (string * val) * list (string * val))) (fs : list (string * val)),
    Forall2 (fun p r => fst r = [] \/ exists t, fst r = [(fst p, VStr t)]) fs rs ->
    forall k, ~ In k (map fst fs) -> get k (flat_map fst rs) = None).
  { induction 1 as [|p r fs rs Hp Hr IH]; intros k Hk; [easy|].
    cbn in Hk. change (flat_map fst (r :: rs)) with (fst r ++ flat_map fst rs).
    destruct Hp as [-> | [t ->]]; cbn.
    - apply IH. tauto.
    - destruct (String.eqb_spec k (fst p)) as [->|]; [tauto|]. apply IH. tauto. }
  induction 1 as [|p r fs rs Hp Hr IH]; intros Hn q s Hin; [easy|].
  cbn in Hn. apply NoDup_cons_iff in Hn. destruct Hn as [Hn1 Hn2].
  change (flat_map fst (r :: rs)) with (fst r ++ flat_map fst rs).
  cbn in Hin. destruct Hin as [E|Hin].
  - injection E as <- <-. destruct Hp as [-> | [t ->]]; cbn.
    + now rewrite (No rs fs).
    + now rewrite String.eqb_refl.
  - assert (Hne : fst q <> fst p).
    { intros E. apply Hn1. rewrite <- E. apply in_map. now apply in_combine_l in Hin. }
    rewrite <- (IH Hn2 q s Hin). destruct Hp as [-> | [t ->]]; cbn; [easy|].
    destruct (String.eqb_spec (fst q) (fst p)); [easy|reflexivity].
Qed.


Lemma mapo_app : forall A B (f : A -> option B) l m a b,
  mapo f l = Some a -> mapo f m = Some b -> mapo f (l ++ m) = Some (a ++ b).
Proof.
  induction l as [|x r IH]; intros m a b Ha Hb; cbn in *.
  - now injection Ha as <-.
  - destruct (f x); [|easy]. destruct (mapo f r) as [ys|]; [|easy]. injection Ha as <-.
    now rewrite (IH m ys b).
Qed.

(** what has to be shown of an object *)
Definition comes_back (text : bool) (v : val) : Prop :=
  forall c, of_class c v = true -> ok text v = true ->
  exists j, ser classes v = Some j /\ (text = true -> plain j = true) /\
            deser classes c j = Some (stored v).

Lemma items_back : forall text c l,
  (forall x, In x l -> comes_back text x) ->
  forallb (fun v => of_class c v && ok text v) l = true ->
  exists js, mapo (ser classes) l = Some js /\ (text = true -> forallb plain js = true) /\
             mapo (deser classes c) js = Some (map stored l).
Proof.
  intros text c l Hl Hok. rewrite forallb_forall in Hok.
  destruct (mapo_all _ _ (ser classes)
    (fun x j => (text = true -> plain j = true) /\ deser classes c j = Some (stored x)) l) as (js & Hs & H2).
  { intros x Hx. specialize (Hok x Hx). apply andb_true_iff in Hok. destruct Hok as [Hc Ho].
    destruct (Hl x Hx c Hc Ho) as (j & Hj & Hp & Hd). exists j. tauto. }
  exists js. split; [easy|]. split.
  - intros Ht. apply (forallb_two _ _ _ plain _ _ H2). intros x y [Hp _]. now apply Hp.
  - apply (mapo_two _ _ _ _ (deser classes c) stored _ _ H2). now intros x y _ [_ Hd].
Qed.

Lemma entries_back : forall text c (kv : list (string * val)),
  (forall e, In e kv -> comes_back text (snd e)) ->
  forallb (fun e => of_class c (snd e) && ok text (snd e)) kv = true ->
  exists js, mapo (fun e => match ser classes (snd e) with Some j => Some (fst e, j) | None => None end) kv = Some js /\
             (text = true -> forallb (fun e => plain (snd e)) js = true) /\
             mapo (fun e => match deser classes c (snd e) with Some v => Some (fst e, v) | None => None end) js
             = Some (map (fun e => (fst e, stored (snd e))) kv).
Proof.
  intros text c l Hl Hok. rewrite forallb_forall in Hok.
  destruct (mapo_all _ _ (fun e => match ser classes (snd e) with Some j => Some (fst e, j) | None => None end)
    (fun x j => (text = true -> plain (snd j) = true) /\ fst j = fst x /\
                deser classes c (snd j) = Some (stored (snd x))) l) as (js & Hs & H2).
  { intros x Hx. specialize (Hok x Hx). apply andb_true_iff in Hok. destruct Hok as [Hc Ho].
    destruct (Hl x Hx c Hc Ho) as (j & Hj & Hp & Hd). exists (fst x, j). rewrite Hj. cbn. tauto. }
  exists js. split; [easy|]. split.
  - intros Ht. apply (forallb_two _ _ _ _ _ _ H2). intros x y [Hp _]. now apply Hp.
  - apply (mapo_two _ _ _ _ _ (fun e => (fst e, stored (snd e))) _ _ H2).
    intros x y _ (_ & E & Hd). now rewrite Hd, E.
Qed.

Lemma keyed_back : forall text c (kv : list (string * val)),
  (forall e, In e kv -> comes_back text (snd e)) ->
  forallb (fun e => of_class c (snd e) && ok text (snd e)) kv = true ->
  exists js, mapo (fun e => match ser classes (snd e) with
                            | Some j => Some (VDict [("key", VStr (fst e)); ("val", j)]) | None => None end) kv = Some js /\
             (text = true -> forallb plain js = true) /\
             mapo (fun e => match e with
                            | VDict es =>
                                match get "key" es with
                                | Some (VStr n) =>
                                    getf "val" (fun w => match deser classes c w with
                                                         | Some v => Some (n, v)
                                                         | None => None
                                                         end) es
                                | _ => None
                                end
                            | _ => None
                            end) js
             = Some (map (fun e => (fst e, stored (snd e))) kv).
Proof.
  intros text c l Hl Hok. rewrite forallb_forall in Hok.
  destruct (mapo_all _ _ (fun e => match ser classes (snd e) with
              | Some j => Some (VDict [("key", VStr (fst e)); ("val", j)]) | None => None end)
    (fun x y => exists j, y = VDict [("key", VStr (fst x)); ("val", j)] /\ (text = true -> plain j = true) /\
                deser classes c j = Some (stored (snd x))) l) as (js & Hs & H2).
  { intros x Hx. specialize (Hok x Hx). apply andb_true_iff in Hok. destruct Hok as [Hc Ho].
    destruct (Hl x Hx c Hc Ho) as (j & Hj & Hp & Hd).
    exists (VDict [("key", VStr (fst x)); ("val", j)]). rewrite Hj. split; [easy|]. exists j. tauto. }
  exists js. split; [easy|]. split.
  - intros Ht. apply (forallb_two _ _ _ _ _ _ H2). intros x y (j & -> & Hp & _). cbn. now rewrite Hp.
  - apply (mapo_two _ _ _ _ _ (fun e => (fst e, stored (snd e))) _ _ H2).
    intros x y _ (j & -> & _ & Hd). cbn. now rewrite Hd.
Qed.

Definition field_back (text : bool) (d : cdesc) (p : string * val)
    (r : list (string * val) * list (string * val)) : Prop :=
  (fst r = [] \/ exists t, fst r = [(fst p, VStr t)]) /\
  (text = true -> forallb (fun e => plain (snd e)) (snd r) = true) /\
  (forall hints, get (fst p) hints = get (fst p) (fst r) ->
   exists vs, mapo (deser_field (deser classes) d hints) (snd r) = Some vs /\
              List.concat vs = stored_field stored d p).

Lemma field_comes_back : forall text d p,
  (forall v, (size v <= size (snd p))%nat -> comes_back text v) ->
  fst p <> HINTS -> ok_field text (ok text) d p = true ->
  exists r, ser_field (ser classes) d p = Some r /\ field_back text d p r.
Proof.
  intros text d [k x] IH Hk Hok. cbn in Hk, IH.
  unfold ok_field in Hok. cbn [ser_field]. unfold field_back, stored_field. cbn [fst snd].
  destruct (has k (ignored d)) eqn:Hi.
  { exists ([], []). split; [easy|]. cbn. split; [now left|]. split; [easy|].
    intros. exists []. now split. }
  cbn [orb] in Hok.
  assert (HH : String.eqb k HINTS = false) by now apply String.eqb_neq.
  destruct (get k (custom d)) as [[c|c|c|c]|] eqn:Hc.
  - destruct x as [ | | | | | |l|l|kv|c' fs]; try easy.
    destruct (items_back text c l) as (js & Hs & Hp & Hd); [|easy|].
    { intros y Hy. apply IH. cbn. assert (Q := in_size val size l y Hy). lia. }
    rewrite Hs. exists ([], [(k, VList js)]). split; [easy|]. cbn [fst snd].
    split; [now left|]. split; [cbn; intros Ht; now rewrite Hp|].
    intros hints _. cbn. rewrite HH, Hi, Hc, Hd. cbn. now eexists.
  - destruct x as [ | | | | | |l|l|kv|c' fs]; try easy. destruct l as [|a [|b [|]]]; try easy.
    destruct (items_back text c [a; b]) as (js & Hs & Hp & Hd).
    { intros y Hy. apply IH. cbn. assert (Q := in_size val size [a; b] y Hy). cbn in Q. lia. }
    { cbn. apply andb_true_iff in Hok. destruct Hok as [-> ->]. easy. }
    rewrite Hs. exists ([], [(k, VList js)]). split; [easy|]. cbn [fst snd].
    split; [now left|]. split; [cbn; intros Ht; now rewrite Hp|].
    intros hints _. cbn. rewrite HH, Hi, Hc. cbn in Hs.
    destruct (ser classes a) as [ja|]; [|easy]. destruct (ser classes b) as [jb|]; [|easy].
    injection Hs as <-. cbn in Hd.
    destruct (deser classes c ja) as [va|]; [|easy]. destruct (deser classes c jb) as [vb|]; [|easy].
    injection Hd as -> ->. now eexists.
  - destruct x as [ | | | | | |l|l|kv|c' fs]; try easy.
    apply andb_true_iff in Hok. destruct Hok as [Hok Hn]. apply distinct_nodup in Hn.
    destruct (keyed_back text c kv) as (js & Hs & Hp & Hd); [|easy|].
    { intros y Hy. apply IH. cbn. assert (Q := in_size _ (fun e => size (snd e)) kv y Hy). cbn in Q. lia. }
    rewrite Hs. exists ([], [(k, VList js)]). split; [easy|]. cbn [fst snd].
    split; [now left|]. split; [cbn; intros Ht; now rewrite Hp|].
    intros hints _. cbn. rewrite HH, Hi, Hc, Hd.
    rewrite dict_of_nodup; [now eexists|]. rewrite map_map. cbn. now rewrite map_ext with (g := fst).
  - destruct x as [ | | | | | |l|l|kv|c' fs]; try easy.
    apply andb_true_iff in Hok. destruct Hok as [Hok Hn]. apply distinct_nodup in Hn.
    destruct (entries_back text c kv) as (js & Hs & Hp & Hd); [|easy|].
    { intros y Hy. apply IH. cbn. assert (Q := in_size _ (fun e => size (snd e)) kv y Hy). cbn in Q. lia. }
    rewrite Hs. exists ([], [(k, VDict js)]). split; [easy|]. cbn [fst snd].
    split; [now left|]. split; [cbn; intros Ht; now rewrite Hp|].
    intros hints _. cbn. rewrite HH, Hi, Hc, Hd.
    rewrite dict_of_nodup; [now eexists|]. rewrite map_map. cbn. now rewrite map_ext with (g := fst).
  - destruct x as [ |b|z|q|s|lg z|l|l|kv|c' fs];
      try (exists ([], [(k, ltac:(match goal with H : (if text then plain ?x else true) = true |- _ => exact x end))]);
           split; [easy|]; cbn [fst snd]; split; [now left|];
           split; [intros ->; cbn; cbn in Hok; now rewrite ?Hok|];
           intros hints Hh; cbn in Hh |- *; rewrite HH, Hi, Hc, Hh; cbn; now eexists).
    + exists ([(k, VStr (np_name lg))], [(k, VInt z)]). split; [easy|]. cbn [fst snd].
      split; [right; now eexists|]. split; [easy|].
      intros hints Hh. cbn in Hh |- *. rewrite HH, Hi, Hc, Hh, String.eqb_refl.
      destruct lg; cbn; now eexists.
    + apply andb_true_iff in Hok. destruct Hok as [Hok H64]. apply andb_true_iff in Hok. destruct Hok as [Hok H32].
      destruct (IH (VObj c' fs) (le_n _) c') as (j & Hs & Hp & Hd); [cbn; apply String.eqb_refl|easy|].
      rewrite Hs. exists ([(k, VStr c')], [(k, j)]). split; [easy|]. cbn [fst snd].
      split; [right; now eexists|]. split; [cbn; intros Ht; now rewrite Hp|].
      intros hints Hh. cbn in Hh. rewrite String.eqb_refl in Hh.
      cbn [mapo deser_field]. rewrite HH, Hi, Hc, Hh. cbn [orb].
      apply negb_true_iff in H32, H64. rewrite H32, H64, Hd. now eexists.
Qed.

Lemma fields_back : forall text d hints fs rs,
  Forall2 (field_back text d) fs rs ->
  (forall p r, In (p, r) (combine fs rs) -> get (fst p) hints = get (fst p) (fst r)) ->
  exists vs, mapo (deser_field (deser classes) d hints) (flat_map snd rs) = Some vs /\
             List.concat vs = flat_map (stored_field stored d) fs.
Proof.
  induction 1 as [|p r fs rs Hp Hr IH]; intros Hh; [exists []; now split|].
  destruct Hp as (_ & _ & Hp). destruct (Hp hints) as (v1 & E1 & C1).
  { apply Hh. now left. }
  destruct IH as (v2 & E2 & C2). { intros q s Hin. apply Hh. now right. }
  exists (v1 ++ v2). cbn [flat_map]. split; [now apply mapo_app|].
  rewrite concat_app. now rewrite C1, C2.
Qed.

Theorem object_comes_back : forall text v, comes_back text v.
Proof.
  intros text v. remember (size v) as n eqn:Hn. revert v Hn.
  induction n as [n IH] using (well_founded_induction Wf_nat.lt_wf). intros v Hn c Hc Hok.
  destruct v as [ | | | | | | | | |c' fs]; try easy.
  cbn in Hc. apply String.eqb_eq in Hc. subst c'.
  cbn [ok] in Hok. cbn [ser stored].
  destruct (classes c) as [d|] eqn:Hd; [|easy].
  apply andb_true_iff in Hok. destruct Hok as [Hok Hf].
  apply andb_true_iff in Hok. destruct Hok as [Hnd Hhi].
  apply distinct_nodup in Hnd. apply negb_true_iff, has_not in Hhi.
  rewrite forallb_forall in Hf.
  destruct (mapo_all _ _ (ser_field (ser classes) d) (field_back text d) fs) as (rs & Hs & H2).
  { intros p Hp. apply field_comes_back.
    - intros w Hw. apply (IH (size w)); [|easy].
      assert (Q := in_size _ (fun e => size (snd e)) fs p Hp). cbn in Q, Hn. lia.
    - intros E. apply Hhi. rewrite <- E. now apply in_map.
    - now apply Hf. }
  rewrite Hs. eexists. split; [reflexivity|].
  assert (H1 : Forall2 (fun p r => fst r = [] \/ exists t, fst r = [(fst p, VStr t)]) fs rs).
  { clear - H2. induction H2 as [|x y l l' Hxy Hl IH]; constructor; [apply Hxy|easy]. }
  split.
  - intros Ht. cbn. apply andb_true_iff. split.
    + clear - H1. induction H1 as [|x y l l' Hxy Hl IH]; [easy|].
      change (flat_map fst (y :: l')) with (fst y ++ flat_map fst l').
      rewrite forallb_app, IH. destruct Hxy as [-> | [t ->]]; easy.
    + clear - H2 Ht. induction H2 as [|x y l l' Hxy Hl IH]; [easy|].
      change (flat_map snd (y :: l')) with (snd y ++ flat_map snd l').
      rewrite forallb_app, IH. destruct Hxy as (_ & Hp & _). now rewrite Hp.
  - cbn [deser]. rewrite Hd.
    destruct (fields_back text d (flat_map fst rs) fs rs H2) as (vs & E & C).
    { intros p r Hin. now apply (get_hint rs fs H1 Hnd). }
    assert (EH : hints_of ((HINTS, VDict (flat_map fst rs)) :: flat_map snd rs) = flat_map fst rs) by reflexivity.
    rewrite EH. cbn [mapo]. rewrite E.
    unfold deser_field at 1. rewrite String.eqb_refl. cbn [orb List.concat app]. now rewrite C.
Qed.
End Classes.

Lemma plain_text : forall v, plain v = true -> json_text v = Some v.
Proof.
  intros v. remember (size v) as n eqn:Hn. revert v Hn.
  induction n as [n IH] using (well_founded_induction Wf_nat.lt_wf). intros v Hn Hp.
  destruct v as [ | | | | | |l|l|kv|c' fs]; try easy; cbn in Hp |- *; rewrite forallb_forall in Hp.
  - assert (E : mapo json_text l = Some l).
    { cbn in Hn. assert (Q : forall x, In x l -> json_text x = Some x).
      { intros x Hx. apply (IH (size x)); [|easy|now apply Hp].
        assert (Q := in_size _ size l x Hx). lia. }
      clear - Q. induction l as [|a r IH]; [easy|]. cbn.
      rewrite (Q a (or_introl eq_refl)), IH; [easy|]. intros x Hx. apply Q. now right. }
    now rewrite E.
  - assert (E : mapo (fun e => match json_text (snd e) with Some j => Some (fst e, j) | None => None end) kv = Some kv).
    { cbn in Hn. assert (Q : forall e, In e kv -> json_text (snd e) = Some (snd e)).
      { intros x Hx. apply (IH (size (snd x))); [|easy|now apply Hp].
        assert (Q := in_size _ (fun e => size (snd e)) kv x Hx). cbn in Q. lia. }
      clear - Q. induction kv as [|a r IH]; [easy|]. cbn.
      rewrite (Q a (or_introl eq_refl)), IH; [|intros x Hx; apply Q; now right]. now destruct a. }
    now rewrite E.
Qed.
