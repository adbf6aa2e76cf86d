(** Vocabulary for the statements about decoded chromosomes. *)
From Coq Require Import ZArith List Bool.
From Verif Require Import TimeModel MomentumModel JITModel MomentumSpec GraphModel ScheduleModel ScheduleSpec SgsModel.
Import ListNotations.
Local Open Scope Z_scope.

(** The specification fixes the number of workers of kind [k] to [m]. *)
Definition spec_count (sp : work_spec) (reqs : list req) (k : nat) (m : Z) : Prop :=
  In (k, m) (sp_workers sp) /\ (length (sp_workers sp) = length reqs \/ 0 < m).
(** [m] workers of kind [k]: the number fixed by the specification, otherwise the amount
    of the row. *)
Definition gene_count (names : list nat) (sp : work_spec) (reqs : list req) (amounts : list Z) (k : nat) (m : Z) : Prop :=
  spec_count sp reqs k m \/
  ((forall m', ~ spec_count sp reqs k m') /\ exists j, nth_error names j = Some k /\ nth_error amounts j = Some m).
(** The row of work [n] in the chromosome. *)
Definition gene (nodes : list nat) (ch : chromosome) (n : nat) (amounts : list Z) (ci : nat) : Prop :=
  exists i, nth_error nodes i = Some n /\ nth_error (ch_rows ch) i = Some (amounts, ci).
(** The team and the contractor that the chromosome gives work [n]: one worker per
    requirement. *)
Definition gene_team (g : graph) (names : list nat) (cs : list contractor) (nodes : list nat) (ch : chromosome)
           (n : nat) (team : list worker) (cid : nat) : Prop :=
  exists amounts ci c, gene nodes ch n amounts ci /\ nth_error cs ci = Some c /\ cid = ct_id c /\
    Forall2 (fun r k => w_contractor k = ct_id c /\ w_kind k = r_kind r /\
                        (exists a, In (r_kind r, a) (ct_workers c)) /\
                        gene_count names (ch_spec ch n) (u_reqs (g_unit g n)) amounts (r_kind r) (w_count k))
            (u_reqs (g_unit g n)) team.
(** The border of contractor number [ci] for kind [k]. *)
Definition border_for (names : list nat) (borders : list (list Z)) (ci k : nat) (b : Z) : Prop :=
  exists row j, nth_error borders ci = Some row /\ nth_error names j = Some k /\ nth_error row j = Some b.

(** Amounts and borders are not negative and the specification is a dictionary. *)
Definition chromosome_ok (ch : chromosome) : Prop :=
  (forall amounts ci a, In (amounts, ci) (ch_rows ch) -> In a amounts -> 0 <= a) /\
  (forall row b, In row (ch_borders ch) -> In b row -> 0 <= b) /\
  (forall n, spec_ok (ch_spec ch n) /\ NoDup (map fst (sp_workers (ch_spec ch n)))).

(** The same entry of a schedule up to the contractor of a work without workers. *)
Definition same_but_idle (x y : nat * swork) : Prop :=
  fst x = fst y /\ sw_start (snd x) = sw_start (snd y) /\ sw_finish (snd x) = sw_finish (snd y) /\
  sw_team (snd x) = sw_team (snd y) /\ (sw_team (snd x) <> [] -> sw_contractor (snd x) = sw_contractor (snd y)).

(** The amount of the row of work [n] for kind [k]. *)
Definition row_amount (names : list nat) (amounts : list Z) (k : nat) (a : Z) : Prop :=
  exists j, nth_error names j = Some k /\ nth_error amounts j = Some a.
(** The team that the row of work [n] names: the kinds with positive amounts. *)
Definition row_team (names : list nat) (cs : list contractor) (nodes : list nat) (ch : chromosome) (n : nat) (team : list worker) : Prop :=
  exists amounts ci c, gene nodes ch n amounts ci /\ nth_error cs ci = Some c /\ NoDup (map w_kind team) /\
    forall w, In w team <-> exists k a, row_amount names amounts k a /\ 0 < a /\ w = Wk (ct_id c) k a.
(** The team and contractor that a decoded work has in the parallel scheme: as [row_team],
    the numbers of required kinds replaced by those that the specification fixes. *)
Definition parallel_gene_team (g : graph) (names : list nat) (cs : list contractor) (nodes : list nat) (ch : chromosome)
           (n : nat) (team : list worker) (cid : nat) : Prop :=
  exists amounts ci c, gene nodes ch n amounts ci /\ nth_error cs ci = Some c /\ cid = ct_id c /\ NoDup (map w_kind team) /\
    forall w, In w team <->
      exists k a m, row_amount names amounts k a /\ 0 < a /\ w = Wk (ct_id c) k m /\
        ((In k (map r_kind (u_reqs (g_unit g n))) /\ gene_count names (ch_spec ch n) (u_reqs (g_unit g n)) amounts k m) \/
         (~ In k (map r_kind (u_reqs (g_unit g n))) /\ m = a)).
