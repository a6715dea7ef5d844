(** What the response of a sensor to light is *)
From Verif Require Import Base NoiseSpec.
From Coq Require Import Factorial.
Local Open Scope Q_scope.

(** [scale] times the probability of [k] photons, [mean^k exp(-mean) / k!], with [em] for the exponential *)
Definition expected (scale em mean : Q) (k : nat) : Q := scale * (mean ^ Z.of_nat k * em / inject_Z (Z.of_nat (fact k))).
(** the charges and their weights *)
Definition weights (xs ys : list Q) : list (Q * Q) := combine xs ys.
(** the weight of all the ways in which a dark charge and [k] charges of one photoelectron add up to [v] *)
Definition weight_of_sum (dark pe : list (Q * Q)) (k : nat) (v : Q) : Q := sumF (fun d => snd d * prob_of_sum pe k (v - fst d)) dark.
(** the charges of the bins are multiples of the width, bin number [z] being at zero *)
Definition zero_at (bins : list Q) (z : nat) (w : Q) : Prop :=
  (z < length bins)%nat /\ 0 < w /\ forall i x, nth_error bins i = Some x -> x == (inject_Z (Z.of_nat i) - inject_Z (Z.of_nat z)) * w.
(** seeds within bounds *)
Definition within (s lo : Q) (hi : option Q) : Prop := lo <= s /\ match hi with Some h => s <= h | None => True end.
Definition all_within (seeds lo : list Q) (hi : list (option Q)) : Prop :=
  length lo = length seeds /\ length hi = length seeds /\ forall i, (i < length seeds)%nat -> within (nth i seeds 0) (nth i lo 0) (nth i hi None).
