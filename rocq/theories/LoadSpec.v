(** Vocabulary for C122 *)
From Coq Require Import List ZArith String.
From Verif Require Import Base PmapioModel LoadModel.
Import ListNotations.

(** [part] is what is left of [all], in order, when exactly the elements with [P] are kept *)
Inductive Picked {A} (P : A -> Prop) : list A -> list A -> Prop :=
| picked_nil : Picked P [] []
| picked_take x all part : P x -> Picked P all part -> Picked P (x :: all) (x :: part)
| picked_leave x all part : ~ P x -> Picked P all part -> Picked P (x :: all) part.

(** [w] is the part of the list that begins at [skip] and has at most [n] elements *)
Definition window {A} (skip : nat) (n : option nat) (l w : list A) : Prop :=
  exists before after, l = before ++ w ++ after /\ List.length before = Nat.min skip (List.length l) /\
    match n with None => after = [] | Some n => List.length w = Nat.min n (List.length l - skip) end.

(** a table of an event: the rows of that event, or nothing when the file has no such table *)
Definition of_event {R} (event_of : R -> Z) (ev : Z) (table part : option (list R)) : Prop :=
  match table, part with Some t, Some p => Picked (fun r => event_of r = ev) t p | None, None => True | _, _ => False end.
Definition event_tables (f : pm_file) (ev : Z) (it : one) : Prop :=
  let '(s1, s2, si, p1, p2) := it in
  of_event s_event ev (pm_s1 f) s1 /\ of_event s_event ev (pm_s2 f) s2 /\ of_event r_event ev (pm_si f) si /\
  of_event r_event ev (pm_s1pmt f) p1 /\ of_event r_event ev (pm_s2pmt f) p2.
Definition rows_of {R} (part : option (list R)) : list R := match part with Some l => l | None => [] end.
Definition it_s1 (it : one) := let '(a, _, _, _, _) := it in rows_of a.
Definition it_s2 (it : one) := let '(_, a, _, _, _) := it in rows_of a.
Definition it_si (it : one) := let '(_, _, a, _, _) := it in rows_of a.
Definition it_s1pmt (it : one) := let '(_, _, _, a, _) := it in rows_of a.
Definition it_s2pmt (it : one) := let '(_, _, _, _, a) := it in rows_of a.

(** the tables of the files of a list that can be read, in order *)
Inductive Readable {R} : list (h5file R) -> list (dst R) -> Prop :=
| r_nil : Readable [] []
| r_table d fs ds : Readable fs ds -> Readable (File (Some d) :: fs) (d :: ds)
| r_other f fs ds : (forall d, f <> File (Some d)) -> Readable fs ds -> Readable (f :: fs) ds.

(** an entry of a node of histograms: the bins of each sensor, one sensor after the other *)
Definition written (n_sensors n_bins : nat) (histo : list Z) (entry : list (list Z)) : Prop :=
  List.length entry = n_sensors /\ forall s b, (s < n_sensors)%nat -> (b < n_bins)%nat -> exists r, nth_error entry s = Some r /\ nth_error r b = nth_error histo (s * n_bins + b)%nat.
