(** Independent vocabulary for the cluster properties *)
From Verif Require Import Base WfmSpec XyModel.
Local Open Scope Q_scope.

(** [c] is the cluster made of the sensors [g]: total charge, number of sensors,
    charge-weighted mean position and variance *)
Definition cluster_of (g : list sensor) (c : cluster) : Prop :=
  cQ c == sumF charge g /\ cn c = length g /\
  cx c * cQ c == sumF (fun s => charge s * sX s) g /\
  cy c * cQ c == sumF (fun s => charge s * sY s) g /\
  cvx c * cQ c == sumF (fun s => charge s * ((sX s - cx c) * (sX s - cx c))) g /\
  cvy c * cQ c == sumF (fun s => charge s * ((sY s - cy c) * (sY s - cy c))) g.

(** number of inactive SiPMs within [d] of a point *)
Definition masked_near (all : list ((Q * Q) * bool)) (d : Q) (center : Q * Q) (n : nat) : Prop :=
  exists bad, n = length bad /\ (forall x, In x bad -> snd x = false /\ reached d (fst x) center) /\
  exists rest, Permutation (bad ++ rest) all /\ forall x, In x rest -> snd x = true \/ ~ reached d (fst x) center.

(** [parts p l a b]: [a] are the elements of [l] with [p] and [b] the others *)
Definition parts {A} (p : A -> Prop) (l a b : list A) : Prop :=
  Permutation (a ++ b) l /\ (forall x, In x a -> p x) /\ (forall x, In x b -> ~ p x).

(** the documented steps of corona: take the sensor with most charge (at least Qlm), the mean
    position of the sensors near it, and the sensors near that position; these form a cluster
    if they are enough (counting inactive ones if asked); continue with the rest *)
Inductive corona_steps (all : list ((Q * Q) * bool)) (Qlm lm nlm : Q) (msipm : Z) (consider : bool)
  : list sensor -> list cluster -> Prop :=
| steps_end ss : (forall s, In s ss -> charge s < Qlm) -> corona_steps all Qlm lm nlm msipm consider ss []
| steps_cluster ss h near0 far0 c0 group rest n c cs :
    In h ss -> (forall s, In s ss -> charge s <= charge h) -> Qlm <= charge h ->
    parts (fun s => reached lm (spos s) (spos h)) ss near0 far0 -> cluster_of near0 c0 ->
    parts (fun s => reached nlm (spos s) (cx c0, cy c0)) ss group rest ->
    masked_near all nlm (cx c0, cy c0) n ->
    (msipm <= Z.of_nat (length group) + (if consider then Z.of_nat n else 0))%Z -> cluster_of group c ->
    corona_steps all Qlm lm nlm msipm consider rest cs ->
    corona_steps all Qlm lm nlm msipm consider ss (c :: cs)
| steps_discard ss h near0 far0 c0 group rest n cs :
    In h ss -> (forall s, In s ss -> charge s <= charge h) -> Qlm <= charge h ->
    parts (fun s => reached lm (spos s) (spos h)) ss near0 far0 -> cluster_of near0 c0 ->
    parts (fun s => reached nlm (spos s) (cx c0, cy c0)) ss group rest ->
    masked_near all nlm (cx c0, cy c0) n ->
    (Z.of_nat (length group) + (if consider then Z.of_nat n else 0) < msipm)%Z ->
    corona_steps all Qlm lm nlm msipm consider rest cs ->
    corona_steps all Qlm lm nlm msipm consider ss cs.
