(** What the noise of several samples is *)
From Coq Require Import QArith ZArith List.
From Verif Require Import Base.
Import ListNotations.
Local Open Scope Q_scope.

(** the probability that [n] independent samples, each with value [x] with probability [p] for the pairs [(x, p)], add up to [v] *)
Fixpoint prob_of_sum (xp : list (Q * Q)) (n : nat) (v : Q) : Q :=
  match n with
  | O => if Qeqb v 0 then 1 else 0
  | S n => sumF (fun e => snd e * prob_of_sum xp n (v - fst e)) xp
  end.
(** the mean of one sample *)
Definition mean_of (xp : list (Q * Q)) : Q := sumF (fun e => fst e * snd e) xp.
(** the bins are [first], [first + w], [first + 2w]..., with at most five decimals *)
Definition five_decimals (x : Q) : Prop := exists z, x == inject_Z z / 100000.
Definition evenly_spaced (bins : list Q) (first w : Q) : Prop :=
  (2 <= length bins)%nat /\ 0 < w /\ five_decimals w /\ five_decimals first /\
  forall i x, nth_error bins i = Some x -> x == first + inject_Z (Z.of_nat i) * w.
