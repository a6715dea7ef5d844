(** Scintillation light: where the light of a hit goes *)
From Coq Require Import Qround.
From Verif Require Import Base PeaksModel.
Local Open Scope Q_scope.

(** the time t is in bin i of a buffer of n bins of width w that starts at a; the end of the buffer belongs to the last bin *)
Definition in_bin (a w : Q) (n i : nat) (t : Q) : Prop :=
  (i < n)%nat /\ a + qn i * w <= t /\ (t < a + qn (S i) * w \/ (S i = n /\ t == a + qn n * w)).
Definition is_in_bin (a w : Q) (n i : nat) (t : Q) : bool :=
  Nat.ltb i n && Qle_bool (a + qn i * w) t && (Qltb t (a + qn (S i) * w) || (Nat.eqb (S i) n && Qeqb t (a + qn n * w))).
(** the light of the hits (time, photoelectrons) of a bin *)
Definition light_in (a w : Q) (n i : nat) (hits : list (Q * Q)) : Q := sumF snd (filter (fun h => is_in_bin a w n i (fst h)) hits).
(** the fraction of the light emitted during bin k after that of the hit; none from bin m on *)
Definition fraction (emitted : Q -> Q) (w : Q) (m k : nat) : Q := if Nat.ltb k m then emitted (qn (S k) * w) - emitted (qn k * w) else 0.
(** the bins after that of the hit that receive light: those that cover two microseconds, or the buffer *)
Definition emission_bins (buffer_length bin_width : Q) : nat := Z.to_nat (Qceiling (Qmin 2000 buffer_length / bin_width)).
(** the light of the hits is emitted over time: nothing before the interaction, and in total at most all of it *)
Definition emission (emitted : Q -> Q) : Prop :=
  (forall s t, s == t -> emitted s == emitted t) /\ emitted 0 == 0 /\ (forall s t, 0 <= s -> s <= t -> emitted s <= emitted t) /\ forall t, emitted t <= 1.
