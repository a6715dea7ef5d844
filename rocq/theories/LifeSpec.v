(** Specification of the seeds and parameters of the lifetime fits, without the model *)
From Coq Require Import Reals.
From Verif Require Import Base.
Local Open Scope R_scope.

(** the energy after a drift time [t], for an initial energy [e0] and a lifetime [lt] *)
Definition decay (e0 lt t : R) : R := e0 * exp (- (t / lt)).
(** [m] is the smallest ([M] the greatest) of the values *)
Definition smallest (l : list R) (m : R) : Prop := In m l /\ forall v, In v l -> m <= v.
Definition greatest (l : list R) (m : R) : Prop := In m l /\ forall v, In v l -> v <= m.
(** [p] is not after [q]: at an earlier time or at the same time with at most the same energy *)
Definition not_after (p q : R * R) : Prop := fst p < fst q \/ fst p = fst q /\ snd p <= snd q.
Definition earliest (d : list (R * R)) (p : R * R) : Prop := In p d /\ forall q, In q d -> not_after p q.
Definition latest (d : list (R * R)) (p : R * R) : Prop := In p d /\ forall q, In q d -> not_after q p.
