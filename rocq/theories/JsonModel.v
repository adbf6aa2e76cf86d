(** Model of the writing and reading of objects (sampo/schemas/serializable.py,
    sampo/utilities/serializers.py) and of the classes that are written and read: times,
    workers, requirements, works, contractors, scheduled works and schedules. *)
From Coq Require Import ZArith QArith List Bool String.
Import ListNotations.
Local Open Scope string_scope.
Local Open Scope list_scope.

(** Python values.  [VNp long z] is a numpy int64 ([long = true]) or int32; an object is the
    name of its class and its [__dict__].  Dictionaries have text keys and keep their order.
    Numpy arrays and data frames as fields (serializers.py:82-95) are not modelled: no class
    of the project that is modelled here has such a field. *)
Inductive val :=
| VNone
| VBool (b : bool)
| VInt (z : Z)
| VFloat (q : Q)
| VStr (s : string)
| VNp (long : bool) (z : Z)
| VList (l : list val)
| VTuple (l : list val)
| VDict (d : list (string * val))
| VObj (c : string) (fs : list (string * val)).

(** a look-up in a dictionary *)
Fixpoint get {A : Type} (k : string) (d : list (string * A)) : option A :=
  match d with
  | [] => None
  | (k', v) :: r => if String.eqb k k' then Some v else get k r
  end.
(** look-up in a dictionary followed by a computation that may fail; [get] and then [f] *)
Section Getf.
  Context {A B : Type}.
  Variable k : string.
  Variable f : A -> option B.
  Fixpoint getf (d : list (string * A)) : option B :=
    match d with
    | [] => None
    | (k', v) :: r => if String.eqb k k' then f v else getf r
    end.
End Getf.
Definition has (k : string) (l : list string) : bool := existsb (String.eqb k) l.

(** a list comprehension whose body may raise *)
Section Mapo.
  Context {A B : Type}.
  Variable f : A -> option B.
  Fixpoint mapo (l : list A) : option (list B) :=
    match l with
    | [] => Some []
    | x :: r =>
        match f x with
        | Some y => match mapo r with Some ys => Some (y :: ys) | None => None end
        | None => None
        end
    end.
End Mapo.

(** the entry of a dictionary that is set: the place of the first entry of that key is kept *)
Fixpoint dict_set {A : Type} (k : string) (v : A) (d : list (string * A)) : list (string * A) :=
  match d with
  | [] => [(k, v)]
  | (k', v') :: r => if String.eqb k k' then (k', v) :: r else (k', v') :: dict_set k v r
  end.
Definition dict_of {A : Type} (l : list (string * A)) : list (string * A) :=
  fold_left (fun d p => dict_set (fst p) (snd p) d) l [].

(** serializable.py:32 *)
Definition HINTS : string := "_serializable_type_hints".
(** str(np.int32), str(np.int64): serializable.py:283-284 *)
Definition np_name (long : bool) : string :=
  if long then "<class 'numpy.int64'>" else "<class 'numpy.int32'>".

(** What the methods decorated with custom_serializer do to a field
    (serializers.py:15-48).  The four kinds that exist in the classes modelled:
    - [KList c]: [[t._serialize() for t in value]] and [[c._deserialize(t) for t in value]]
      (scheduled_work.py:70-91, works.py:84-139);
    - [KPair c]: the same list on writing, a pair on reading (scheduled_work.py:77-80);
    - [KKeyed c]: a list of entries 'key' and 'val' (contractor.py:37-39 and 45-48);
    - [KMap c]: a dictionary (contractor.py:41-43 and 50-53). *)
Inductive kind := KList (c : string) | KPair (c : string) | KKeyed (c : string) | KMap (c : string).

(** a class: its ignored_fields and its custom serializers of fields.  Serializers of types
    (CUSTOM_TYPE_SERIALIZER) are used by no class of the project and are not modelled. *)
Record cdesc := { ignored : list string; custom : list (string * kind) }.

Section Classes.
(** the classes that derive from Serializable, by the name pydoc.classname gives *)
Variable classes : string -> option cdesc.

(** serializable.py:350-384, one entry of [__dict__]: the type hints it adds and the entries
    it adds to the dictionary.  [rec] is the [_serialize] method of the values inside. *)
Definition ser_field (rec : val -> option val) (d : cdesc) (p : string * val)
  : option (list (string * val) * list (string * val)) :=
  let '(k, x) := p in
  if has k (ignored d) then Some ([], [])
  else
    match get k (custom d) with
    | Some (KList _) | Some (KPair _) =>
        match x with
        | VList l | VTuple l =>
            match mapo rec l with Some js => Some ([], [(k, VList js)]) | None => None end
        | _ => None
        end
    | Some (KKeyed _) =>
        match x with
        | VDict kv =>
            match mapo (fun e => match rec (snd e) with
                                 | Some j => Some (VDict [("key", VStr (fst e)); ("val", j)])
                                 | None => None
                                 end) kv with
            | Some js => Some ([], [(k, VList js)])
            | None => None
            end
        | _ => None
        end
    | Some (KMap _) =>
        match x with
        | VDict kv =>
            match mapo (fun e => match rec (snd e) with
                                 | Some j => Some (fst e, j)
                                 | None => None
                                 end) kv with
            | Some js => Some ([], [(k, VDict js)])
            | None => None
            end
        | _ => None
        end
    | None =>
        match x with
        | VNp long z => Some ([(k, VStr (np_name long))], [(k, VInt z)])
        | VObj c _ =>
            match rec x with Some j => Some ([(k, VStr c)], [(k, j)]) | None => None end
        | _ => Some ([], [(k, x)])
        end
    end.
(** serializable.py:318-388, [_serialize]; a value that has no such method raises *)
Fixpoint ser (v : val) : option val :=
  match v with
  | VObj c fs =>
      match classes c with
      | None => None
      | Some d =>
          match mapo (ser_field ser d) fs with
          | Some rs => Some (VDict ((HINTS, VDict (flat_map fst rs)) :: flat_map snd rs))
          | None => None
          end
      end
  | _ => None
  end.

(** serializable.py:412-431, one entry of the dictionary that is read.  [rec c] is
    [c._deserialize]. *)
Definition deser_field (rec : string -> val -> option val) (d : cdesc)
    (hints : list (string * val)) (p : string * val) : option (list (string * val)) :=
  let '(k, x) := p in
  if String.eqb k HINTS || has k (ignored d) then Some []
  else
    match get k (custom d) with
    | Some (KList c) =>
        match x with
        | VList l | VTuple l =>
            match mapo (rec c) l with Some vs => Some [(k, VList vs)] | None => None end
        | _ => None
        end
    | Some (KPair c) =>
        match x with
        | VList (a :: b :: _) | VTuple (a :: b :: _) =>
            match rec c a with
            | Some va => match rec c b with
                         | Some vb => Some [(k, VTuple [va; vb])]
                         | None => None
                         end
            | None => None
            end
        | _ => None
        end
    | Some (KKeyed c) =>
        match x with
        | VList l =>
            match mapo (fun e => match e with
                                 | VDict es =>
                                     match get "key" es with
                                     | Some (VStr n) =>
                                         getf "val" (fun w => match rec c w with
                                                              | Some v => Some (n, v)
                                                              | None => None
                                                              end) es
                                     | _ => None
                                     end
                                 | _ => None
                                 end) l with
            | Some vs => Some [(k, VDict (dict_of vs))]
            | None => None
            end
        | _ => None
        end
    | Some (KMap c) =>
        match x with
        | VDict kv =>
            match mapo (fun e => match rec c (snd e) with
                                 | Some v => Some (fst e, v)
                                 | None => None
                                 end) kv with
            | Some vs => Some [(k, VDict (dict_of vs))]
            | None => None
            end
        | _ => None
        end
    | None =>
        match get k hints with
        | Some (VStr t) =>
            if String.eqb t (np_name false) then
              match x with VInt z => Some [(k, VNp false z)] | _ => None end
            else if String.eqb t (np_name true) then
              match x with VInt z => Some [(k, VNp true z)] | _ => None end
            else match rec t x with Some v => Some [(k, v)] | None => None end
        | Some _ => None
        | None => Some [(k, x)]
        end
    end.
(** serializable.py:405-408: the hints in a dictionary *)
Definition hints_of (fs : list (string * val)) : list (string * val) :=
  match get HINTS fs with Some (VDict h) => h | _ => [] end.
(** serializable.py:390-441, [c._deserialize(j)] *)
Fixpoint deser (c : string) (j : val) {struct j} : option val :=
  match classes c with
  | None => None
  | Some d =>
      match j with
      | VDict fs =>
          match mapo (deser_field deser d (hints_of fs)) fs with
          | Some vs => Some (VObj c (map (fun k => (k, VNone)) (ignored d) ++ List.concat vs))
          | None => None
          end
      | _ => None
      end
  end.

(** What is left of the dictionary that was read: serializable.py:408 deletes the hints from
    the dictionary of the caller, and so does every read inside it. *)
Definition spent_field (rec : string -> val -> val) (d : cdesc)
    (hints : list (string * val)) (p : string * val) : list (string * val) :=
  let '(k, x) := p in
  if String.eqb k HINTS then []
  else if has k (ignored d) then [(k, x)]
  else
    match get k (custom d) with
    | Some (KList c) | Some (KPair c) =>
        match x with VList l => [(k, VList (map (rec c) l))] | _ => [(k, x)] end
    | Some (KKeyed c) =>
        match x with
        | VList l =>
            [(k, VList (map (fun e => match e with
                                      | VDict es =>
                                          VDict (map (fun q => if String.eqb (fst q) "val"
                                                               then (fst q, rec c (snd q)) else q) es)
                                      | _ => e
                                      end) l))]
        | _ => [(k, x)]
        end
    | Some (KMap c) =>
        match x with
        | VDict kv => [(k, VDict (map (fun e => (fst e, rec c (snd e))) kv))]
        | _ => [(k, x)]
        end
    | None =>
        match get k hints with
        | Some (VStr t) => [(k, rec t x)]
        | _ => [(k, x)]
        end
    end.
Fixpoint spent (c : string) (j : val) {struct j} : val :=
  match classes c with
  | None => j
  | Some d =>
      match j with
      | VDict fs => VDict (flat_map (spent_field spent d (hints_of fs)) fs)
      | _ => j
      end
  end.
End Classes.

(** json.loads(json.dumps(v)) (serializable.py:210-223 and 249-254): tuples become lists; an object or a
    numpy integer raises TypeError.  The json module is trusted to give back every text,
    number, boolean, None, list and dictionary with text keys. *)
Fixpoint json_text (v : val) : option val :=
  match v with
  | VNp _ _ | VObj _ _ => None
  | VList l | VTuple l => match mapo json_text l with Some l' => Some (VList l') | None => None end
  | VDict d =>
      match mapo (fun e => match json_text (snd e) with
                           | Some j => Some (fst e, j)
                           | None => None
                           end) d with
      | Some d' => Some (VDict d')
      | None => None
      end
  | _ => Some v
  end.

(** The classes of the project. *)
Definition TimeC := "sampo.schemas.time.Time".
Definition WorkerC := "sampo.schemas.resources.Worker".
Definition EquipmentC := "sampo.schemas.resources.Equipment".
Definition ZoneC := "sampo.schemas.zones.ZoneTransition".
Definition SworkC := "sampo.schemas.scheduled_work.ScheduledWork".
Definition WorkerReqC := "sampo.schemas.requirements.WorkerReq".
Definition EquipmentReqC := "sampo.schemas.requirements.EquipmentReq".
Definition MaterialReqC := "sampo.schemas.requirements.MaterialReq".
Definition ZoneReqC := "sampo.schemas.requirements.ZoneReq".
Definition WorkC := "sampo.schemas.works.WorkUnit".
Definition ContractorC := "sampo.schemas.contractor.Contractor".
Definition IntervalC := "sampo.schemas.interval.IntervalGaussian".

Definition plain_class : cdesc := {| ignored := []; custom := [] |}.
Definition class_table : list (string * cdesc) :=
  [ (TimeC, plain_class);                                    (* time.py:7 *)
    (WorkerC, {| ignored := ["productivity"]; custom := [] |}); (* resources.py:73 *)
    (EquipmentC, plain_class);                               (* resources.py:137 *)
    (ZoneC, plain_class);                                    (* zones.py:55 *)
    (SworkC,                                                 (* scheduled_work.py:28 and 70-91 *)
     {| ignored := ["equipments"; "materials"; "object"; "work_unit"];
        custom := [("workers", KList WorkerC); ("zones_pre", KList ZoneC);
                   ("zones_post", KList ZoneC); ("start_end_time", KPair TimeC)] |});
    (WorkerReqC, plain_class); (EquipmentReqC, plain_class); (* requirements.py:30-120 *)
    (MaterialReqC, plain_class); (ZoneReqC, plain_class);
    (WorkC,                                                  (* works.py:84-139 *)
     {| ignored := [];
        custom := [("worker_reqs", KList WorkerReqC); ("zone_reqs", KList ZoneReqC);
                   ("material_reqs", KList MaterialReqC)] |});
    (ContractorC,                                            (* contractor.py:37-53 *)
     {| ignored := []; custom := [("workers", KKeyed WorkerC); ("equipments", KMap EquipmentC)] |});
    (IntervalC, plain_class) ].                              (* interval.py *)
Definition sampo (c : string) : option cdesc := get c class_table.

(** dumpd, dumps followed by the reading of the text, loadd: serializable.py:196-241 *)
Definition dumpd (o : val) : option val := ser sampo o.
Definition dumps (o : val) : option val :=
  match dumpd o with Some j => json_text j | None => None end.
Definition loadd (c : string) (j : val) : option val := deser sampo c j.

(** Schedule._serialize, schedule.py:95-99, of the objects in its table *)
Definition schedule_dumpd (works : list val) : option val :=
  match mapo (ser sampo) works with
  | Some js => Some (VDict [("works", VList js)])
  | None => None
  end.
Definition schedule_dumps (works : list val) : option val :=
  match schedule_dumpd works with Some j => json_text j | None => None end.
(** Schedule._deserialize, schedule.py:101-105, and from_scheduled_works, schedule.py:140-189,
    without a graph: the objects of the table that is built, in their order, and the
    dictionary of the caller afterwards ('works' now holds the objects).  Other keys would be
    arguments of from_scheduled_works ('wg' is one) and are not modelled.  No works:
    [first] of an empty list, schedule.py:21, raises. *)
Definition schedule_loadd (j : val) : option (list val * val) :=
  match j with
  | VDict [(k, VList js)] =>
      if String.eqb k "works" then
        match mapo (deser sampo SworkC) js with
        | Some [] => None
        | Some os => Some (os, VDict [("works", VList os)])
        | None => None
        end
      else None
  | _ => None
  end.

(** an attribute *)
Definition attr (o : val) (k : string) : option val :=
  match o with VObj _ fs => get k fs | _ => None end.

(** One row of the table of a schedule (schedule.py:165-176): id, name, contractor, cost,
    volume, start, finish, duration, the numbers of workers by name, and the columns of the model name. *)
Record row := {
  r_id : val; r_name : val; r_contractor : val; r_cost : val; r_volume : val;
  r_start : Z; r_finish : Z; r_duration : Z;
  r_workers : list (string * val); r_model : list (string * val) }.
Definition time_value (o : val) : option Z :=
  match attr o "value" with Some (VInt z) => Some z | _ => None end.
(** schedule.py:150-158 [sed] *)
Definition sed (a b : Z) : Z * Z * Z :=
  if (b <? a)%Z then (b, a, a - b)%Z else (a, b, b - a)%Z.
(** resources.py:47: [count] reads [_count] *)
Definition named_count (o : val) : option (string * val) :=
  match attr o "name", attr o "_count" with
  | Some (VStr n), Some c => Some (n, c)
  | _, _ => None
  end.
Definition sched_row (o : val) : option row :=
  match attr o "id", attr o "display_name", attr o "contractor", attr o "cost", attr o "volume",
        attr o "start_end_time", attr o "workers", attr o "model_name" with
  | Some i, Some n, Some c, Some co, Some v, Some (VTuple [a; b]), Some (VList ws), Some (VDict m) =>
      match time_value a, time_value b, mapo named_count ws with
      | Some s, Some f, Some nc =>
          let '(s', f', d) := sed s f in
          Some {| r_id := i; r_name := n; r_contractor := c; r_cost := co; r_volume := v;
                  r_start := s'; r_finish := f'; r_duration := d;
                  r_workers := dict_of nc; r_model := m |}
      | _, _, _ => None
      end
  | _, _, _, _, _, _, _, _ => None
  end.
(** the table: schedule.py:165-189 *)
Definition schedule_table (works : list val) : option (list row) := mapo sched_row works.

(** The objects. *)
Definition Tm (z : Z) : val := VObj TimeC [("value", VInt z)].
(** an optional text *)
Definition opt_str (o : option string) : val := match o with Some s => VStr s | None => VNone end.
Inductive number := NInt (z : Z) | NFloat (q : Q).
Definition num (n : number) : val := match n with NInt z => VInt z | NFloat q => VFloat q end.

(** resources.py:23-44 and 53-72 *)
Record worker := {
  w_id : string; w_name : string; w_count : Z; w_contractor : option string;
  w_productivity : val; w_cost : number }.
Definition worker_obj (w : worker) : val :=
  VObj WorkerC [("id", VStr (w_id w)); ("name", VStr (w_name w)); ("_count", VInt (w_count w));
                ("contractor_id", opt_str (w_contractor w)); ("productivity", w_productivity w);
                ("cost_one_unit", num (w_cost w))].
(** zones.py:55-62 *)
Record transition := {
  z_name : string; z_from : Z; z_to : Z; z_start : Z; z_end : Z }.
Definition transition_obj (z : transition) : val :=
  VObj ZoneC [("name", VStr (z_name z)); ("from_status", VInt (z_from z)); ("to_status", VInt (z_to z));
              ("start_time", Tm (z_start z)); ("end_time", Tm (z_end z))].
(** scheduled_work.py:30-62, in the order in which the attributes are set *)
Record swork := {
  s_id : string; s_model : list (string * val); s_display : string; s_service : bool;
  s_volume : number; s_priority : Z; s_start : Z; s_finish : Z; s_workers : list worker;
  s_equipments : val; s_pre : list transition; s_post : list transition;
  s_materials : val; s_object : val; s_contractor_id : string; s_contractor : string; s_cost : number }.
Definition swork_obj (w : swork) : val :=
  VObj SworkC
    [("id", VStr (s_id w)); ("model_name", VDict (s_model w)); ("display_name", VStr (s_display w));
     ("is_service_unit", VBool (s_service w)); ("volume", num (s_volume w));
     ("priority", VInt (s_priority w)); ("start_end_time", VTuple [Tm (s_start w); Tm (s_finish w)]);
     ("workers", VList (map worker_obj (s_workers w))); ("equipments", s_equipments w);
     ("zones_pre", VList (map transition_obj (s_pre w)));
     ("zones_post", VList (map transition_obj (s_post w)));
     ("materials", s_materials w); ("object", s_object w);
     ("contractor_id", VStr (s_contractor_id w)); ("contractor", VStr (s_contractor w));
     ("cost", num (s_cost w))].

(** requirements.py:30-46, 92-105 and 113-117 *)
Record worker_req := {
  q_kind : string; q_volume : Z; q_min : Z; q_max : Z; q_name : option string }.
Definition worker_req_obj (q : worker_req) : val :=
  VObj WorkerReqC [("kind", VStr (q_kind q)); ("volume", Tm (q_volume q)); ("min_count", VInt (q_min q));
                   ("max_count", VInt (q_max q)); ("name", opt_str (q_name q))].
Record simple_req := { m_kind : string; m_count : Z; m_name : option string }.
Definition material_req_obj (q : simple_req) : val :=
  VObj MaterialReqC [("kind", VStr (m_kind q)); ("count", VInt (m_count q)); ("name", opt_str (m_name q))].
Definition zone_req_obj (q : simple_req) : val :=
  VObj ZoneReqC [("kind", VStr (m_kind q)); ("required_status", VInt (m_count q)); ("name", opt_str (m_name q))].
Definition equipment_req_obj (q : simple_req) : val :=
  VObj EquipmentReqC [("kind", VStr (m_kind q)); ("count", VInt (m_count q)); ("name", opt_str (m_name q))].

(** works.py:43-76 *)
Record work := {
  u_model : list (string * val); u_id : string; u_workers : list worker_req;
  u_equipment : list simple_req; u_objects : list val; u_materials : list simple_req;
  u_zones : list simple_req; u_description : string; u_group : string; u_service : bool;
  u_volume : number; u_display : string; u_priority : Z }.
Definition work_obj (u : work) : val :=
  VObj WorkC
    [("model_name", VDict (u_model u)); ("id", VStr (u_id u)); ("name", VStr "dummy");
     ("worker_reqs", VList (map worker_req_obj (u_workers u)));
     ("equipment_reqs", VList (map equipment_req_obj (u_equipment u)));
     ("object_reqs", VList (u_objects u));
     ("material_reqs", VList (map material_req_obj (u_materials u)));
     ("zone_reqs", VList (map zone_req_obj (u_zones u)));
     ("description", VStr (u_description u)); ("group", VStr (u_group u));
     ("is_service_unit", VBool (u_service u)); ("volume", num (u_volume u));
     ("display_name", VStr (u_display u)); ("priority", VInt (u_priority u))].

(** resources.py:137-139; contractor.py:18-33 *)
Definition equipment_obj (e : string * string * Z * option string) : val :=
  let '(i, n, c, ct) := e in
  VObj EquipmentC [("id", VStr i); ("name", VStr n); ("_count", VInt c); ("contractor_id", opt_str ct)].
Record contractor := {
  c_id : string; c_name : string; c_workers : list (string * worker);
  c_equipments : list (string * (string * string * Z * option string)) }.
Definition contractor_obj (c : contractor) : val :=
  VObj ContractorC
    [("id", VStr (c_id c)); ("name", VStr (c_name c));
     ("workers", VDict (map (fun p => (fst p, worker_obj (snd p))) (c_workers c)));
     ("equipments", VDict (map (fun p => (fst p, equipment_obj (snd p))) (c_equipments c)))].

(** WorkUnit.__getstate__ and __setstate__, works.py:141-160: what copy.deepcopy and pickle
    make of a work.  The attributes set by __setstate__, in its order. *)
Definition copied_attributes : list string :=
  ["worker_reqs"; "equipment_reqs"; "object_reqs"; "material_reqs"; "zone_reqs"; "id"; "model_name";
   "is_service_unit"; "volume"; "group"; "display_name"; "priority"].
Definition work_copy (o : val) : option val :=
  match ser sampo o with
  | Some j =>
      match deser sampo WorkC j with
      | Some o' =>
          match mapo (fun k => match attr o' k with Some v => Some (k, v) | None => None end)
                     copied_attributes with
          | Some fs => Some (VObj WorkC fs)
          | None => None
          end
      | None => None
      end
  | None => None
  end.

(** Worker.copy, resources.py:75-85, with Worker.__init__, resources.py:60-71: the productivity
    that is None becomes IntervalGaussian(1, 0, 1, 1), and the cost is ten times the mean of
    the productivity, whatever it was *)
Definition interval (mean sigma low high : Q) : val :=
  VObj IntervalC [("mean", VFloat mean); ("sigma", VFloat sigma);
                  ("min_val", VFloat low); ("max_val", VFloat high)].
Definition worker_copy (o : val) : option val :=
  match attr o "id", attr o "name", attr o "_count", attr o "contractor_id", attr o "productivity" with
  | Some i, Some n, Some c, Some ct, Some p =>
      let p' := match p with VNone => interval 1 0 1 1 | _ => p end in
      match attr p' "mean" with
      | Some (VFloat m) =>
          Some (VObj WorkerC [("id", i); ("name", n); ("_count", c); ("contractor_id", ct);
                              ("productivity", p'); ("cost_one_unit", VFloat (m * 10))])
      | _ => None
      end
  | _, _, _, _, _ => None
  end.
(** Worker.get_productivity, resources.py:106-117, in the static mode *)
Definition worker_productivity (o : val) : option Q :=
  match attr o "productivity", attr o "_count" with
  | Some p, Some (VInt n) =>
      match attr p "mean" with Some (VFloat m) => Some (m * inject_Z n)%Q | _ => None end
  | _, _ => None
  end.
