(** Vocabulary for the statements about the LFT scheduler. *)
From Coq Require Import ZArith List Bool.
From Verif Require Import TimeModel MomentumModel JITModel GraphModel ScheduleModel.
Import ListNotations.
Local Open Scope Z_scope.

(** The specification names [m] workers of kind [k]; -1 stands for no number. *)
Definition named (sp : work_spec) (k : nat) (m : Z) : Prop := In (k, m) (sp_workers sp) /\ m <> -1.
(** The numbers named for the required kinds are within the requirements. *)
Definition names_in_range (sp : work_spec) (reqs : list req) : Prop :=
  forall r m, In r reqs -> named sp (r_kind r) m -> r_min r <= m <= r_max r.
(** The contractor is allowed and has the required and the named numbers of workers. *)
Definition can_do (sp : work_spec) (reqs : list req) (ct : contractor) : Prop :=
  (sp_contractors sp = [] \/ In (ct_id ct) (sp_contractors sp)) /\
  forall r, In r reqs -> exists n, In (r_kind r, n) (ct_workers ct) /\ r_min r <= n /\
    forall m, named sp (r_kind r) m -> m <= n.
(** The team that a work gets at a contractor: of every required kind the named number, and
    if there is none, as many as the contractor has and the requirement admits. *)
Definition largest_team (sp : work_spec) (reqs : list req) (ct : contractor) (team : list worker) : Prop :=
  Forall2 (fun r w => w_contractor w = ct_id ct /\ w_kind w = r_kind r /\
             (named sp (r_kind r) (w_count w) \/
              ((forall m, ~ named sp (r_kind r) m) /\
               exists n, In (r_kind r, n) (ct_workers ct) /\ w_count w = Z.min n (r_max r)))) reqs team.
(** The same team without its contractor; the estimates of the works of a chain summed up. *)
Definition anonymous_team (anonymous : nat) (team : list worker) : list worker :=
  map (fun w => Wk anonymous (w_kind w) (w_count w)) team.
Definition chain_time (g : graph) (est : nat -> list worker -> Z) (n : nat) (team : list worker) (t : Z) : Prop :=
  exists chain, chain_of g n = Some chain /\ t = fold_left (fun t m => tadd t (est m team)) chain 0.
