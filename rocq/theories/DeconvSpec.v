(** Vocabulary for the statements about the cleaning of hits and the deconvolved hits *)
From Verif Require Import Base PeaksModel CorrModel PsfModel PsfSpec DeconvModel.
From Coq Require Import Relations.
Local Open Scope Q_scope.

(** the elements of a list that satisfy a property, in order *)
Inductive survivors {A} (P : A -> Prop) : list A -> list A -> Prop :=
| survivors_nil : survivors P [] []
| survivors_in a l m : P a -> survivors P l m -> survivors P (a :: l) (a :: m)
| survivors_out a l m : ~ P a -> survivors P l m -> survivors P (a :: l) m.
(** the total of a variable *)
Definition total (i : nat) (l : list dhit) : Q := sumF (fun h => nth i (dvars h) 0) l.
(** the same hit apart from its label and its variables *)
Definition same_hit (h h' : dhit) : Prop := d_peak h' = d_peak h /\ dX h' = dX h /\ dY h' = dY h /\ dZ h' = dZ h /\ dQ h' = dQ h /\ length (dvars h') = length (dvars h).
(** [out] are the hits [kept] of [all], with the n variables scaled so as to keep the totals *)
Definition redistributed (n : nat) (all kept out : list dhit) : Prop :=
  (forall i, (i < n)%nat -> kept <> [] -> ~ total i kept == 0)
  /\ Forall2 (fun h h' => same_hit h h' /\ forall i, (i < n)%nat -> nth i (dvars h') 0 == nth i (dvars h) 0 * (total i all / total i kept)) kept out.
(** there is another sensor at a positive distance of at most the diagonal (dx, dy) *)
Definition dist2 (a b : dhit) : Q := (dX a - dX b) * (dX a - dX b) + (dY a - dY b) * (dY a - dY b).
Definition has_neighbour (dx dy : Q) (df : list dhit) (h : dhit) : Prop := exists h', In h' df /\ 0 < dist2 h h' /\ dist2 h h' <= dx * dx + dy * dy.
(** two hits are close: their distance in units of (dx, dy, dz) is at most the square root of 3 *)
Definition close (dx dy dz : Q) (a b : dhit) : Prop :=
  ((dX a - dX b) / dx) * ((dX a - dX b) / dx) + ((dY a - dY b) / dy) * ((dY a - dY b) / dy) + ((dZ a - dZ b) / dz) * ((dZ a - dZ b) / dz) <= 3.
(** joined by a chain of close hits *)
Definition linked (dx dy dz : Q) (df : list dhit) : dhit -> dhit -> Prop := clos_refl_trans dhit (fun a b => In a df /\ In b df /\ close dx dy dz a b).
(** the hit is in a cluster of more than [nhits] hits *)
Definition in_large_cluster (dx dy dz : Q) (nhits : Z) (df : list dhit) (h : dhit) : Prop :=
  exists cluster, NoDup cluster /\ (forall h', In h' cluster <-> In h' df /\ linked dx dy dz df h h') /\ (nhits < Z.of_nat (length cluster))%Z.
(** every hit has n positive variables *)
Definition positive (n : nat) (df : list dhit) : Prop := forall h, In h df -> forall i, (i < n)%nat -> 0 < nth i (dvars h) 0.
(** what happens to the hits of each peak of an event *)
Definition peak_by_peak (R : list dhit -> list dhit -> Prop) (df out : list dhit) : Prop :=
  forall k hits rows, picks d_peak k df hits -> picks d_peak k out rows -> R hits rows.
