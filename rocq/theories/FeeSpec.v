(** Signals *)
From Coq Require Import QArith ZArith List.
From Verif Require Import Base.
Import ListNotations.
Local Open Scope Q_scope.

(** [l] is [c] times [u] plus [v], sample by sample *)
Inductive combined (c : Q) : list Q -> list Q -> list Q -> Prop :=
| comb_nil : combined c [] [] []
| comb_cons x y z l u v : x == c * y + z -> combined c l u v -> combined c (x :: l) (y :: u) (z :: v).
(** the signals agree before sample [t] *)
Definition agree_before (t : nat) (l l' : list Q) : Prop := length l = length l' /\ forall i, (i < t)%nat -> nth i l 0 == nth i l' 0.
