(** Independent vocabulary for spectra *)
From Verif Require Import Base.
Local Open Scope nat_scope.

Definition how_many {A} (p : A -> bool) (l : list A) : nat := length (filter p l).
(** the value [x] is in the bin [i] of [edges]: from one edge, included, to the next one, which is included only in the last bin *)
Definition in_bin (edges : list Q) (i : nat) (x : Q) : bool :=
  Qle_bool (nth i edges 0%Q) x && (if i + 2 =? length edges then Qle_bool x (nth (i + 1) edges 0%Q) else Qltb x (nth (i + 1) edges 0%Q)).
Definition non_decreasing (edges : list Q) : Prop := forall i, i + 1 < length edges -> (nth i edges 0 <= nth (i + 1) edges 0)%Q.
(** [h] is the histogram of the values [l]; [hs] are the histograms of the sensors, with the values of each one in all the events *)
Definition is_histogram (edges : list Q) (l : list Q) (h : list nat) : Prop :=
  length h = length edges - 1 /\ forall i, i < length edges - 1 -> nth i h 0 = how_many (in_bin edges i) l.
Definition is_spectrum (edges : list Q) (n : nat) (values : nat -> list Q) (hs : list (list nat)) : Prop :=
  length hs = n /\ forall s, s < n -> is_histogram edges (values s) (nth s hs []).
