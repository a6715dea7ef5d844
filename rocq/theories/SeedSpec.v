(** Specification of the seeds of the calibration fits, without the model *)
From Coq Require Import Reals.
From Verif Require Import Base.
Local Open Scope R_scope.

(** the counts of the bins with charges that fulfil [P] add up to [t] *)
Inductive adds_up (P : R -> Prop) : list R -> list R -> R -> Prop :=
| adds_none : adds_up P [] [] 0
| adds_in : forall c s bins l t, P c -> adds_up P bins l t -> adds_up P (c :: bins) (s :: l) (s + t)
| adds_out : forall c s bins l t, ~ P c -> adds_up P bins l t -> adds_up P (c :: bins) (s :: l) t.
(** the density of a gaussian at a charge, times its area *)
Definition normal (area mean sigma c : R) : R := area * exp (- ((c - mean) / sigma) ^ 2 / 2) / (sigma * sqrt (2 * PI)).
(** position [i] is chosen among [l] for the counts [s]: none has more, and those before it have less *)
Definition highest (s : list R) (l : list nat) (i : nat) : Prop :=
  exists a b, l = a ++ i :: b /\ (forall j, In j a -> nth j s 0 < nth i s 0) /\ (forall j, In j b -> nth j s 0 <= nth i s 0).
(** the first bin with charge [c] *)
Definition first_with (bins : list R) (c : R) (i : nat) : Prop := nth_error bins i = Some c /\ forall j, (j < i)%nat -> nth_error bins j <> Some c.
(** the charges that fulfil [P] and the counts of their bins, in order *)
Inductive those_with (P : R -> Prop) : list R -> list R -> list R -> list R -> Prop :=
| with_none : those_with P [] [] [] []
| with_in : forall c s bins l sel m, P c -> those_with P bins l sel m -> those_with P (c :: bins) (s :: l) (c :: sel) (s :: m)
| with_out : forall c s bins l sel m, ~ P c -> those_with P bins l sel m -> those_with P (c :: bins) (s :: l) sel m.
(** the error of a number of counts: its square root, and one if there are none *)
Definition error_of (s e : R) : Prop := (s = 0 -> e = 1) /\ (0 < s -> 0 < e /\ e ^ 2 = s).
