(** What historical data say of two works, for the statements about the links found in them. *)
From Coq Require Import ZArith QArith List Bool Permutation Sorted.
From Verif Require Import TimeModel MomentumModel GraphModel HistoryModel.
Import ListNotations.
Local Open Scope Z_scope.

(** The first and the last day of a performance of a work; either may be unknown. Unknown days
    come last. *)
Definition days := (option Z * option Z)%type.
Definition earlier (a b : option Z) : Prop :=
  match a, b with Some x, Some y => x < y | Some _, None => True | None, _ => False end.
Definition before (a b : days) : Prop :=
  earlier (fst a) (fst b) \/ fst a = fst b /\ (earlier (snd a) (snd b) \/ snd a = snd b).
Definition days_of (r : hrow) : days := (h_first r, h_last r).
(** The performances of a work at a site, in the order of time. *)
Definition performances (history : list hrow) (site name : nat) (l : list days) : Prop :=
  Permutation l (map days_of (filter (fun r => Nat.eqb (h_site r) site && Nat.eqb (h_name r) name) history))
  /\ StronglySorted before l.
(** An occurrence of two works: first and last day of the one and of the other. *)
Definition occ := (Z * Z * Z * Z)%type.
Definition dated (p : days * days) : list occ :=
  match p with ((Some s1, Some f1), (Some s2, Some f2)) => [(s1, f1, s2, f2)] | _ => [] end.
(** The common occurrences of two works: at each site the first performance of the one with the
    first of the other, the second with the second and so on, where all days are known. *)
Definition common (history : list hrow) (perf : nat -> nat -> list days) (n1 n2 : nat) : list occ :=
  flat_map (fun site => flat_map dated (combine (perf site n1) (perf site n2))) (nodup Nat.eq_dec (map h_site history)).

(** Both last some time, and they do not start on the same day. *)
Definition regular (o : occ) : Prop := let '(s1, f1, s2, f2) := o in s1 < f1 /\ s2 < f2 /\ s1 <> s2.
(** The first one starts first, and: it is finished when the second starts; *)
Definition after (o : occ) : bool := let '(s1, f1, s2, f2) := o in (s1 <? s2) && (f1 <=? s2).
(** they overlap, the first finishing first; *)
Definition overlaps (o : occ) : bool := let '(s1, f1, s2, f2) := o in (s1 <? s2) && (s2 <? f1) && (f1 <=? f2).
(** the second lies within the first. *)
Definition contains (o : occ) : bool := let '(s1, f1, s2, f2) := o in (s1 <? s2) && (f2 <? f1).
Definition starts_first (o : occ) : bool := let '(s1, _, s2, _) := o in s1 <? s2.
(** The share of the first one that is done when the second starts. *)
Definition share (o : occ) : Q := let '(s1, f1, s2, f2) := o in (s2 - s1) # Z.to_pos (f1 - s1).
(** Numbers that are not more than three standard deviations below their average, and the least
    of them. *)
Definition total (l : list Q) : Q := fold_right Qplus 0%Q l.
Definition average (l : list Q) : Q := (total l / inject_Z (Z.of_nat (List.length l)))%Q.
Definition typical (l : list Q) (x : Q) : Prop :=
  (average l <= x)%Q \/
  ((average l - x) * (average l - x) <= 9 * average (map (fun y => (y - average l) * (y - average l)) l))%Q.
Definition least_typical (l : list Q) (x : Q) : Prop :=
  In x l /\ typical l x /\ forall y, In y l -> typical l y -> (x <= y)%Q.
Definition occurrences_of (p : occ -> bool) (l : list occ) : Z := Z.of_nat (List.length (filter p l)).
(** The type of the link, from the numbers of occurrences one after the other, within each
    other and overlapping. *)
Definition the_type (sequential within overlapping : Z) : edge_type :=
  if within <? sequential then if 0 <? overlapping then FFS else FS
  else if overlapping <? within then SS else FFS.
