(** C109, C110: what is written to JSON and read back. *)
From Coq Require Import ZArith QArith List Bool String Lia.
From Verif Require Import JsonModel Json.
Import ListNotations.
Local Open Scope string_scope.
Local Open Scope list_scope.

(** ---- specification ---- *)

(** the worker an object is, apart from its productivity, which is None *)
Definition read_worker (w : worker) (o : val) : Prop :=
  attr o "id" = Some (VStr (w_id w)) /\ attr o "name" = Some (VStr (w_name w)) /\
  attr o "_count" = Some (VInt (w_count w)) /\
  attr o "contractor_id" = Some (opt_str (w_contractor w)) /\
  attr o "cost_one_unit" = Some (num (w_cost w)) /\ attr o "productivity" = Some VNone.
(** the scheduled work an object is, apart from the attributes that are not written *)
Definition read_work (w : swork) (o : val) : Prop :=
  attr o "id" = Some (VStr (s_id w)) /\ attr o "model_name" = Some (VDict (s_model w)) /\
  attr o "display_name" = Some (VStr (s_display w)) /\
  attr o "is_service_unit" = Some (VBool (s_service w)) /\
  attr o "volume" = Some (num (s_volume w)) /\ attr o "priority" = Some (VInt (s_priority w)) /\
  attr o "start_end_time" = Some (VTuple [Tm (s_start w); Tm (s_finish w)]) /\
  (exists ws, attr o "workers" = Some (VList ws) /\ Forall2 read_worker (s_workers w) ws) /\
  attr o "zones_pre" = Some (VList (map transition_obj (s_pre w))) /\
  attr o "zones_post" = Some (VList (map transition_obj (s_post w))) /\
  attr o "contractor_id" = Some (VStr (s_contractor_id w)) /\
  attr o "contractor" = Some (VStr (s_contractor w)) /\ attr o "cost" = Some (num (s_cost w)) /\
  attr o "equipments" = Some VNone /\ attr o "materials" = Some VNone /\ attr o "object" = Some VNone.
(** a dictionary of simple values: texts, numbers, booleans, lists and dictionaries of such *)
Definition simple_dict (d : list (string * val)) : Prop := plain (VDict d) = true.

(** ---- the objects conform to their classes ---- *)

Lemma forallb_map : forall A B (p : B -> bool) (f : A -> B) l,
  (forall x, In x l -> p (f x) = true) -> forallb p (map f l) = true.
Proof.
  induction l as [|a r IH]; intros H; cbn; [easy|].
  rewrite (H a (or_introl eq_refl)), IH; [easy|]. intros; apply H; now right.
Qed.
Lemma plain_num : forall n, plain (num n) = true.
Proof. now intros []. Qed.
Lemma plain_opt : forall o, plain (opt_str o) = true.
Proof. now intros []. Qed.
Lemma ok_num : forall (t : bool) rec k d n, get k (custom d) = None ->
  ok_field t rec d (k, num n) = true.
Proof. intros t rec k d n H. cbn. rewrite H. destruct (has k (ignored d)), n, t; reflexivity. Qed.
Lemma ok_opt : forall (t : bool) rec k d n, get k (custom d) = None ->
  ok_field t rec d (k, opt_str n) = true.
Proof. intros t rec k d n H. cbn. rewrite H. destruct (has k (ignored d)), n, t; reflexivity. Qed.

Lemma worker_ok : forall t w, ok sampo t (worker_obj w) = true.
Proof.
  intros t w. destruct w as [i n c ct p co]. cbn -[ok_field].
  repeat (apply andb_true_iff; split); try reflexivity; try (now apply ok_num); try (now apply ok_opt);
    cbn; now destruct t.
Qed.
Lemma transition_ok : forall t z, ok sampo t (transition_obj z) = true.
Proof. intros t z. destruct t; reflexivity. Qed.
Lemma req_ok : forall t q, ok sampo t (worker_req_obj q) = true.
Proof.
  intros t q. destruct q as [a b c d e]. cbn -[ok_field].
  repeat (apply andb_true_iff; split); try reflexivity; try (now apply ok_opt); cbn; now destruct t.
Qed.
Lemma material_ok : forall t q, ok sampo t (material_req_obj q) = true.
Proof.
  intros t q. destruct q as [a b c]. cbn -[ok_field].
  repeat (apply andb_true_iff; split); try reflexivity; try (now apply ok_opt); cbn; now destruct t.
Qed.
Lemma zone_req_ok : forall t q, ok sampo t (zone_req_obj q) = true.
Proof.
  intros t q. destruct q as [a b c]. cbn -[ok_field].
  repeat (apply andb_true_iff; split); try reflexivity; try (now apply ok_opt); cbn; now destruct t.
Qed.
Lemma equipment_ok : forall t e, ok sampo t (equipment_obj e) = true.
Proof.
  intros t [[[i n] c] ct]. cbn -[ok_field].
  repeat (apply andb_true_iff; split); try reflexivity; try (now apply ok_opt); cbn; now destruct t.
Qed.
Lemma swork_ok : forall w, simple_dict (s_model w) -> ok sampo true (swork_obj w) = true.
Proof.
  intros w Hm. unfold simple_dict in Hm. cbn in Hm. cbn -[ok_field worker_obj transition_obj].
  repeat (apply andb_true_iff; split); try reflexivity; try (now apply ok_num).
  - exact Hm.
  - apply (forallb_map _ _ (fun v => of_class WorkerC v && ok sampo true v)). intros x _.
    now rewrite worker_ok.
  - apply (forallb_map _ _ (fun v => of_class ZoneC v && ok sampo true v)). intros x _.
    now rewrite transition_ok.
  - apply (forallb_map _ _ (fun v => of_class ZoneC v && ok sampo true v)). intros x _.
    now rewrite transition_ok.
Qed.

Lemma stored_transition : forall z, stored sampo (transition_obj z) = transition_obj z.
Proof. reflexivity. Qed.
Lemma stored_req : forall q, stored sampo (worker_req_obj q) = worker_req_obj q.
Proof. intros [a b c d [e|]]; reflexivity. Qed.
Lemma stored_material : forall q, stored sampo (material_req_obj q) = material_req_obj q.
Proof. intros [a b [e|]]; reflexivity. Qed.
Lemma stored_zone_req : forall q, stored sampo (zone_req_obj q) = zone_req_obj q.
Proof. intros [a b [e|]]; reflexivity. Qed.
Lemma stored_equipment : forall e, stored sampo (equipment_obj e) = equipment_obj e.
Proof. intros [[[i n] c] [ct|]]; reflexivity. Qed.
Lemma stored_worker : forall w, read_worker w (stored sampo (worker_obj w)).
Proof. intros [i n c [ct|] p [z|q]]; repeat split. Qed.
Lemma stored_map : forall A (f : A -> val), (forall x, stored sampo (f x) = f x) ->
  forall l, map (stored sampo) (map f l) = map f l.
Proof. intros A f H l. rewrite map_map. now apply map_ext. Qed.
Lemma stored_workers : forall ws, Forall2 read_worker ws (map (stored sampo) (map worker_obj ws)).
Proof.
  induction ws as [|w r IH]; cbn [map]; constructor; [apply stored_worker|exact IH].
Qed.
Definition stored_swork_fields (w : swork) : list (string * val) :=
  [("equipments", VNone); ("materials", VNone); ("object", VNone); ("work_unit", VNone);
   ("id", VStr (s_id w)); ("model_name", VDict (s_model w)); ("display_name", VStr (s_display w));
   ("is_service_unit", VBool (s_service w)); ("volume", num (s_volume w));
   ("priority", VInt (s_priority w)); ("start_end_time", VTuple [Tm (s_start w); Tm (s_finish w)]);
   ("workers", VList (map (stored sampo) (map worker_obj (s_workers w))));
   ("zones_pre", VList (map transition_obj (s_pre w)));
   ("zones_post", VList (map transition_obj (s_post w)));
   ("contractor_id", VStr (s_contractor_id w)); ("contractor", VStr (s_contractor w));
   ("cost", num (s_cost w))].
Lemma stored_num : forall k n d, has k (ignored d) = false -> get k (custom d) = None ->
  stored_field (stored sampo) d (k, num n) = [(k, num n)].
Proof. intros k n d H1 H2. unfold stored_field. rewrite H1, H2. now destruct n. Qed.
Lemma stored_swork : forall w, stored sampo (swork_obj w) = VObj SworkC (stored_swork_fields w).
Proof.
  intros w. unfold stored_swork_fields.
  rewrite <- (stored_map _ _ stored_transition (s_pre w)), <- (stored_map _ _ stored_transition (s_post w)).
  destruct w as [a b c d [v|v] f g h i j k l m n o p [q|q]]; reflexivity.
Qed.
Lemma swork_back : forall w, simple_dict (s_model w) ->
  exists j, ser sampo (swork_obj w) = Some j /\ json_text j = Some j /\
            deser sampo SworkC j = Some (VObj SworkC (stored_swork_fields w)).
Proof.
  intros w Hm. destruct (object_comes_back sampo true (swork_obj w) SworkC) as (j & Hs & Hp & Hd);
    [reflexivity|now apply swork_ok|].
  exists j. rewrite <- stored_swork. split; [easy|]. split; [|easy]. apply plain_text. now apply Hp.
Qed.
Lemma read_stored : forall w, read_work w (VObj SworkC (stored_swork_fields w)).
Proof.
  intros w. unfold read_work. cbn [attr stored_swork_fields get String.eqb Ascii.eqb Bool.eqb].
  repeat split; try reflexivity. eexists. split; [reflexivity|]. apply stored_workers.
Qed.
Lemma counts_same : forall ws,
  mapo named_count (map (stored sampo) (map worker_obj ws)) = mapo named_count (map worker_obj ws).
Proof.
  induction ws as [|w r IH]; [reflexivity|]. cbn [map mapo]. rewrite IH.
  destruct w as [i n c [ct|] p [z|q]]; reflexivity.
Qed.
Lemma counts_some : forall ws, exists nc, mapo named_count (map worker_obj ws) = Some nc.
Proof.
  induction ws as [|w r [nc IH]]; [now eexists|]. cbn [map mapo]. rewrite IH. cbn. now eexists.
Qed.
Lemma row_same : forall w,
  sched_row (VObj SworkC (stored_swork_fields w)) = sched_row (swork_obj w) /\
  sched_row (swork_obj w) <> None.
Proof.
  intros w. unfold sched_row.
  cbn [attr stored_swork_fields swork_obj get String.eqb Ascii.eqb Bool.eqb time_value Tm].
  rewrite counts_same. destruct (counts_some (s_workers w)) as [nc ->].
  split; [reflexivity|]. now destruct (sed _ _) as [[? ?] ?].
Qed.

(** The row of a work: its times in order and the duration between them. *)
Definition row_of (w : swork) (r : row) : Prop :=
  r_id r = VStr (s_id w) /\ r_name r = VStr (s_display w) /\ r_contractor r = VStr (s_contractor w) /\
  r_cost r = num (s_cost w) /\ r_volume r = num (s_volume w) /\ r_model r = s_model w /\
  (r_start r = Z.min (s_start w) (s_finish w) /\ r_finish r = Z.max (s_start w) (s_finish w) /\
   r_duration r = Z.abs (s_finish w - s_start w))%Z /\
  r_workers r = dict_of (map (fun x => (w_name x, VInt (w_count x))) (s_workers w)).
Lemma row_made : forall w, exists r, sched_row (swork_obj w) = Some r /\ row_of w r.
Proof.
  intros w. unfold sched_row. cbn [attr swork_obj get String.eqb Ascii.eqb Bool.eqb time_value Tm].
  assert (E : mapo named_count (map worker_obj (s_workers w)) = Some (map (fun x => (w_name x, VInt (w_count x))) (s_workers w))).
  { induction (s_workers w) as [|x l IH]; [reflexivity|]. cbn [map mapo]. rewrite IH. reflexivity. }
  rewrite E. unfold sed. destruct (Z.ltb_spec (s_finish w) (s_start w)); eexists; (split; [reflexivity|]); unfold row_of; cbn; repeat split; lia.
Qed.

(** ---- C109 ---- *)

(** A schedule that is written and read back has the same works in the same order, with the
    same ids, times, teams, costs, contractors and zone changes, and its table is the same;
    what a scheduled work loses is its equipment, materials and object, what its workers lose
    is their productivity. *)
Theorem schedule_written_and_read : forall works,
  works <> [] -> Forall (fun w => simple_dict (s_model w)) works ->
  exists text os after,
    schedule_dumps (map swork_obj works) = Some text /\
    schedule_loadd text = Some (os, after) /\
    Forall2 read_work works os /\
    schedule_table os = schedule_table (map swork_obj works) /\
    exists table, schedule_table os = Some table /\ Forall2 row_of works table.
Proof.
  intros works Hne Hw.
  assert (H : exists js,
    mapo (ser sampo) (map swork_obj works) = Some js /\ mapo json_text js = Some js /\
    mapo (deser sampo SworkC) js = Some (map (fun w => VObj SworkC (stored_swork_fields w)) works)).
  { clear Hne. induction Hw as [|w r Hm Hr (js & H1 & H2 & H3)]; [exists []; now repeat split|].
    destruct (swork_back w Hm) as (j & J1 & J2 & J3).
    exists (j :: js). cbn [map mapo]. now rewrite J1, J2, J3, H1, H2, H3. }
  destruct H as (js & H1 & H2 & H3).
  exists (VDict [("works", VList js)]), (map (fun w => VObj SworkC (stored_swork_fields w)) works).
  eexists. split; [|split; [|split; [|split]]].
  - unfold schedule_dumps, schedule_dumpd. rewrite H1. cbn. now rewrite H2.
  - unfold schedule_loadd. rewrite String.eqb_refl, H3. destruct works; [easy|reflexivity].
  - clear. induction works as [|w r IH]; constructor; [apply read_stored|exact IH].
  - unfold schedule_table. clear. induction works as [|w r IH]; [reflexivity|].
    cbn [map mapo]. destruct (row_same w) as [-> _]. now rewrite IH.
  - unfold schedule_table. clear. induction works as [|w r (table & IH & F)]; [exists []; split; [reflexivity|constructor]|].
    cbn [map mapo]. destruct (row_same w) as [-> _]. destruct (row_made w) as (x & -> & Hx).
    rewrite IH. exists (x :: table). split; [reflexivity|constructor; assumption].
Qed.
Print Assumptions schedule_written_and_read.

(** Finding: the dictionary that was read cannot be read again; reading changes it. *)
Theorem schedule_read_once : forall j os after,
  schedule_loadd j = Some (os, after) -> schedule_loadd after = None.
Proof.
  intros j os after H. unfold schedule_loadd in H.
  destruct j as [ | | | | | | | |kv| ]; try easy.
  destruct kv as [|[k [ | | | | | |js| | | ]] [|]]; try easy.
  destruct (String.eqb k "works"); [|easy].
  destruct (mapo (deser sampo SworkC) js) as [os'|] eqn:E; [|easy].
  destruct os' as [|o r]; [easy|]. injection H as <- <-.
  unfold schedule_loadd. rewrite String.eqb_refl. cbn [mapo].
  assert (Ho : exists fs, o = VObj SworkC fs).
  { destruct js as [|x js]; [easy|]. cbn [mapo] in E.
    destruct (deser sampo SworkC x) as [o'|] eqn:Ex; [|easy].
    destruct (mapo (deser sampo SworkC) js); [|easy]. injection E as -> ->.
    destruct x as [ | | | | | | | |fs| ]; try easy. cbn [deser] in Ex.
    destruct (sampo SworkC) as [d|]; [|easy].
    destruct (mapo _ fs) as [vs|]; [|easy]. injection Ex as <-. now eexists. }
  destruct Ho as [fs ->]. reflexivity.
Qed.
Print Assumptions schedule_read_once.

(** ---- C110 ---- *)

Lemma work_ok : forall t u,
  simple_dict (u_model u) -> (t = true -> u_equipment u = [] /\ plain (VList (u_objects u)) = true) ->
  ok sampo t (work_obj u) = true.
Proof.
  intros t u Hm He. unfold simple_dict in Hm. cbn in Hm.
  cbn -[ok_field worker_req_obj material_req_obj zone_req_obj equipment_req_obj].
  repeat (apply andb_true_iff; split); try reflexivity; try (now apply ok_num); try (cbn; now destruct t).
  - apply (forallb_map _ _ (fun v => of_class WorkerReqC v && ok sampo t v)). intros x _. now rewrite req_ok.
  - cbn. destruct t; [|easy]. destruct (He eq_refl) as [-> _]. easy.
  - cbn. destruct t; [|easy]. now apply He.
  - apply (forallb_map _ _ (fun v => of_class MaterialReqC v && ok sampo t v)). intros x _. now rewrite material_ok.
  - apply (forallb_map _ _ (fun v => of_class ZoneReqC v && ok sampo t v)). intros x _. now rewrite zone_req_ok.
Qed.
Lemma stored_work : forall u, stored sampo (work_obj u) = work_obj u.
Proof.
  intros u. unfold work_obj at 2.
  rewrite <- (stored_map _ _ stored_req (u_workers u)), <- (stored_map _ _ stored_material (u_materials u)),
    <- (stored_map _ _ stored_zone_req (u_zones u)).
  destruct u as [a b c d e f g h i j [v|v] l m]; reflexivity.
Qed.

(** A work without equipment requirements that is written and read back is the same work. *)
Theorem work_written_and_read : forall u,
  simple_dict (u_model u) -> u_equipment u = [] -> plain (VList (u_objects u)) = true ->
  exists text, dumps (work_obj u) = Some text /\ loadd WorkC text = Some (work_obj u).
Proof.
  intros u Hm He Ho.
  destruct (object_comes_back sampo true (work_obj u) WorkC) as (j & Hs & Hp & Hd);
    [reflexivity|now apply work_ok|].
  exists j. unfold dumps, dumpd, loadd. rewrite Hs, Hd, stored_work. split; [|easy].
  apply plain_text. now apply Hp.
Qed.
Print Assumptions work_written_and_read.


Lemma mapo_in : forall A B (f : A -> option B) l ys x, mapo f l = Some ys -> In x l ->
  exists y, In y ys /\ f x = Some y.
Proof.
  induction l as [|a r IH]; intros ys x H Hx; [easy|]. cbn in H.
  destruct (f a) as [y|] eqn:E; [|easy]. destruct (mapo f r) as [zs|]; [|easy]. injection H as <-.
  destruct Hx as [<- | Hx]; [exists y; split; [now left|easy]|].
  destruct (IH zs x eq_refl Hx) as (z & Hz & Ez). exists z. split; [now right|easy].
Qed.
Lemma mapo_none : forall A B (f : A -> option B) l x, In x l -> f x = None -> mapo f l = None.
Proof.
  intros A B f l x Hx Hf. destruct (mapo f l) as [ys|] eqn:E; [|easy].
  destruct (mapo_in _ _ _ _ _ _ E Hx) as (y & _ & Hy). congruence.
Qed.
(** Finding: a work that needs equipment can be written as a dictionary, but not as text. *)
Theorem equipment_not_written : forall u, simple_dict (u_model u) -> u_equipment u <> [] ->
  dumpd (work_obj u) <> None /\ dumps (work_obj u) = None.
Proof.
  intros u Hm He.
  destruct (object_comes_back sampo false (work_obj u) WorkC) as (j & Hs & _ & Hd);
    [reflexivity|now apply work_ok|].
  unfold dumps, dumpd. rewrite Hs. split; [easy|].
  unfold work_obj in Hs.
  match type of Hs with ser _ (VObj _ ?l) = _ => set (fs := l) in Hs end.
  cbn [ser] in Hs. destruct (sampo WorkC) as [d|] eqn:Ed; [|easy].
  destruct (mapo (ser_field (ser sampo) d) fs) as [rs|] eqn:E; [|easy]. injection Hs as <-.
  destruct (mapo_in _ _ _ _ _ ("equipment_reqs", VList (map equipment_req_obj (u_equipment u))) E) as (y & Hy & Ey).
  { unfold fs. cbn. tauto. }
  unfold sampo in Ed. cbn in Ed. injection Ed as <-. cbn in Ey. injection Ey as <-.
  cbn [json_text].
  assert (H : forall l, In ("equipment_reqs", VList (map equipment_req_obj (u_equipment u))) l ->
    mapo (fun e : string * val => match json_text (snd e) with Some j => Some (fst e, j) | None => None end) l = None).
  { intros l Hl. eapply mapo_none; [exact Hl|]. cbn. destruct (u_equipment u); [easy|reflexivity]. }
  rewrite H; [easy|]. right. apply in_flat_map. eexists. split; [exact Hy|]. cbn. now left.
Qed.
Print Assumptions equipment_not_written.

(** A work that is copied (copy.deepcopy, pickle) keeps what scheduling reads of it. *)
Theorem work_copied : forall u, simple_dict (u_model u) ->
  exists o, work_copy (work_obj u) = Some o /\
    forall k, In k ["worker_reqs"; "equipment_reqs"; "object_reqs"; "material_reqs"; "zone_reqs"; "id"; "model_name";
                    "is_service_unit"; "volume"; "group"; "display_name"; "priority"] ->
      attr o k = attr (work_obj u) k /\ attr o k <> None.
Proof.
  intros u Hm. unfold work_copy.
  destruct (object_comes_back sampo false (work_obj u) WorkC) as (j & Hs & _ & Hd);
    [reflexivity|now apply work_ok|].
  rewrite Hs, Hd, stored_work. cbn -[worker_req_obj]. eexists. split; [reflexivity|].
  intros k Hk. cbn in Hk.
  repeat (destruct Hk as [<- | Hk]; [split; [reflexivity|discriminate]|]). easy.
Qed.
Print Assumptions work_copied.
(** Finding: the copy has no description and no name. *)
Theorem copy_forgets_name : forall u o, simple_dict (u_model u) -> work_copy (work_obj u) = Some o ->
  attr o "name" = None /\ attr o "description" = None /\
  attr (work_obj u) "name" = Some (VStr "dummy") /\
  attr (work_obj u) "description" = Some (VStr (u_description u)).
Proof.
  intros u o Hm H. unfold work_copy in H.
  destruct (object_comes_back sampo false (work_obj u) WorkC) as (j & Hs & _ & Hd);
    [reflexivity|now apply work_ok|].
  rewrite Hs, Hd, stored_work in H. cbn -[worker_req_obj] in H. injection H as <-. now repeat split.
Qed.
Print Assumptions copy_forgets_name.

(** A contractor that is written and read back has the same id, name, equipment and workers,
    under the same keys; the productivity of its workers is lost. *)
Definition read_contractor (c : contractor) (o : val) : Prop :=
  attr o "id" = Some (VStr (c_id c)) /\ attr o "name" = Some (VStr (c_name c)) /\
  (exists ws, attr o "workers" = Some (VDict ws) /\
     Forall2 (fun p q => fst q = fst p /\ read_worker (snd p) (snd q)) (c_workers c) ws) /\
  attr o "equipments" = Some (VDict (map (fun p => (fst p, equipment_obj (snd p))) (c_equipments c))).
Lemma nodup_distinct : forall l, NoDup l -> distinct l = true.
Proof.
  induction 1 as [|k r Hk Hr IH]; cbn; [easy|]. rewrite IH, andb_true_r.
  apply negb_true_iff. now apply has_not.
Qed.
Theorem contractor_written_and_read : forall c,
  NoDup (map fst (c_workers c)) -> NoDup (map fst (c_equipments c)) ->
  exists text o, dumps (contractor_obj c) = Some text /\ loadd ContractorC text = Some o /\
                 read_contractor c o.
Proof.
  intros c H1 H2.
  destruct (object_comes_back sampo true (contractor_obj c) ContractorC) as (j & Hs & Hp & Hd).
  { reflexivity. }
  { cbn -[ok_field worker_obj equipment_obj].
    repeat (apply andb_true_iff; split); try reflexivity.
    - apply (forallb_map _ _ (fun e : string * val => of_class WorkerC (snd e) && ok sampo true (snd e))).
      intros x _. cbn [snd]. now rewrite worker_ok.
    - apply nodup_distinct. now rewrite map_map.
    - apply (forallb_map _ _ (fun e : string * val => of_class EquipmentC (snd e) && ok sampo true (snd e))).
      intros x _. cbn [snd]. rewrite equipment_ok. destruct x as [k [[[i n] q] ct]]. reflexivity.
    - apply nodup_distinct. now rewrite map_map. }
  exists j. eexists. unfold dumps, dumpd, loadd. rewrite Hs. split; [apply plain_text; now apply Hp|].
  split; [exact Hd|].
  unfold read_contractor. cbn -[worker_obj equipment_obj]. repeat split.
  - eexists. split; [reflexivity|]. clear. induction (c_workers c) as [|p r IH]; cbn [map]; constructor.
    + split; [reflexivity|]. apply stored_worker.
    + exact IH.
  - do 2 f_equal. rewrite map_map. apply map_ext. intros p. cbn [fst snd]. now rewrite stored_equipment.
Qed.
Print Assumptions contractor_written_and_read.

(** Finding: a worker that was read back cannot say how productive it is, and the copy the
    schedulers make of it has the default productivity and price. *)
Theorem read_worker_unproductive : forall w o, read_worker w o ->
  worker_productivity o = None /\
  exists o', worker_copy o = Some o' /\ attr o' "productivity" = Some (interval 1 0 1 1) /\
             attr o' "cost_one_unit" = Some (VFloat (1 * 10)) /\
             forall k, In k ["id"; "name"; "_count"; "contractor_id"] -> attr o' k = attr o k /\ attr o' k <> None.
Proof.
  intros w o (H1 & H2 & H3 & H4 & H5 & H6). split.
  - unfold worker_productivity. now rewrite H6, H3.
  - unfold worker_copy. rewrite H1, H2, H3, H4, H6. cbn. eexists. do 3 (split; [reflexivity|]).
    intros k Hk. cbn in Hk. repeat (destruct Hk as [<- | Hk]; [split; [symmetry; assumption|discriminate]|]). easy.
Qed.
Print Assumptions read_worker_unproductive.

(** Finding: a requirement read a second time from the same dictionary has a dictionary, not a
    time, for its volume. *)
Theorem requirement_read_twice : forall q, exists j,
  dumpd (worker_req_obj q) = Some j /\ loadd WorkerReqC j = Some (worker_req_obj q) /\
  exists o, loadd WorkerReqC (spent sampo WorkerReqC j) = Some o /\
            attr o "volume" = Some (VDict [("value", VInt (q_volume q))]).
Proof.
  intros [a b c d [e|]]; eexists; (split; [reflexivity|]); (split; [reflexivity|]);
    eexists; split; reflexivity.
Qed.
Print Assumptions requirement_read_twice.

(** ---- examples ---- *)
Definition js_worker : worker :=
  {| w_id := "w1"; w_name := "driver"; w_count := 3; w_contractor := Some "c1";
     w_productivity := interval 2 0 1 3; w_cost := NInt 25 |}.
Definition js_zone : transition := {| z_name := "door"; z_from := 1; z_to := 2; z_start := 0; z_end := 1 |}.
Definition js_work (i : string) (s f : Z) : swork :=
  {| s_id := i; s_model := [("granular_name", VStr "dig"); ("measurement", VStr "unit")];
     s_display := "dig"; s_service := false; s_volume := NFloat (7 # 2); s_priority := 1;
     s_start := s; s_finish := f; s_workers := [js_worker]; s_equipments := VList [];
     s_pre := [js_zone]; s_post := []; s_materials := VObj "MaterialDelivery" [];
     s_object := VList []; s_contractor_id := "c1"; s_contractor := "Builder"; s_cost := NInt 150 |}.
Example js_schedule : [js_work "a" 1 3; js_work "b" 3 4] <> [] /\
  Forall (fun w => simple_dict (s_model w)) [js_work "a" 1 3; js_work "b" 3 4].
Proof. split; [easy|]. repeat constructor. Qed.
Example js_table :
  match schedule_dumps (map swork_obj [js_work "a" 1 3; js_work "b" 3 4]) with
  | Some text =>
      match schedule_loadd text with
      | Some (os, _) =>
          option_map (map (fun r => (r_id r, r_start r, r_finish r, r_workers r))) (schedule_table os)
      | None => None
      end
  | None => None
  end = Some [(VStr "a", 1, 3, [("driver", VInt 3)]); (VStr "b", 3, 4, [("driver", VInt 3)])]%Z.
Proof. reflexivity. Qed.
Definition js_unit (eq : list simple_req) : work :=
  {| u_model := [("granular_name", VStr "dig")]; u_id := "a";
     u_workers := [{| q_kind := "driver"; q_volume := 12; q_min := 1; q_max := 4; q_name := None |}];
     u_equipment := eq; u_objects := []; u_materials := [{| m_kind := "brick"; m_count := 5; m_name := None |}];
     u_zones := [{| m_kind := "door"; m_count := 1; m_name := Some "d" |}]; u_description := "by hand";
     u_group := "main"; u_service := false; u_volume := NFloat (1 # 2); u_display := "dig"; u_priority := 2 |}.
Example js_unit_hypotheses :
  simple_dict (u_model (js_unit [])) /\ u_equipment (js_unit []) = [] /\
  plain (VList (u_objects (js_unit []))) = true.
Proof. now repeat split. Qed.
Example js_unit_equipment :
  dumps (work_obj (js_unit [{| m_kind := "crane"; m_count := 1; m_name := None |}])) = None.
Proof. reflexivity. Qed.
Definition js_contractor : contractor :=
  {| c_id := "c1"; c_name := "Builder"; c_workers := [("driver", js_worker); ("welder", js_worker)];
     c_equipments := [("crane", ("e1", "crane", 1%Z, None))] |}.
Example js_contractor_hypotheses :
  NoDup (map fst (c_workers js_contractor)) /\ NoDup (map fst (c_equipments js_contractor)).
Proof. split; repeat constructor; cbn; intuition discriminate. Qed.
Example js_productivity :
  worker_productivity (worker_obj js_worker) = Some (2 * inject_Z 3)%Q /\
  match dumps (worker_obj js_worker) with
  | Some t => option_map worker_productivity (loadd WorkerC t)
  | None => None
  end = Some None.
Proof. now split. Qed.
