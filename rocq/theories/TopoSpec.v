(** Independent vocabulary for the tracks and the summary of an event *)
From Verif Require Import Base CorrModel PaolinaModel PaolinaSpec TopoModel.
Local Open Scope Q_scope.

(** the shortest paths are symmetric and no voxel is away from itself *)
Definition paths_metric (paths : list voxel -> list voxel * (voxel -> voxel -> Q)) : Prop :=
  forall t u v, In u t -> In v t -> snd (paths t) u v == snd (paths t) v u /\ snd (paths t) u u == 0.

(** [lo] and [hi] are the corners of the smallest box that holds the points *)
Definition smallest (f : ohit -> Q) (l : list ohit) (lo : Q) : Prop := (forall o, In o l -> lo <= f o) /\ exists o, In o l /\ lo == f o.
Definition largest (f : ohit -> Q) (l : list ohit) (hi : Q) : Prop := (forall o, In o l -> f o <= hi) /\ exists o, In o l /\ hi == f o.
Definition box (l : list ohit) (lo hi : Q * Q * Q) : Prop :=
  smallest xof l (fst (fst lo)) /\ smallest yof l (snd (fst lo)) /\ smallest zof l (snd lo) /\
  largest xof l (fst (fst hi)) /\ largest yof l (snd (fst hi)) /\ largest zof l (snd hi).

(** the mean of the positions, weighted with [w] *)
Definition weighted (w f : ohit -> Q) (l : list ohit) (m : Q) : Prop := m * sumF w l == sumF (fun o => w o * f o) l.
Definition centre (w : ohit -> Q) (l : list ohit) (m : Q * Q * Q) : Prop :=
  weighted w xof l (fst (fst m)) /\ weighted w yof l (snd (fst m)) /\ weighted w zof l (snd m).

Definition ep (o : ohit) : Q := match o_ep o with Some e => e | None => 0 end.
Definition of_track (c : nat) (l : list ohit) : list ohit := filter (fun o => (o_track o =? Z.of_nat c)%Z) l.
Definition energy_in_map (hits : list thit) : Q := sumF (fun h => match tEp h with Some e => e | None => 0 end) hits.

(** two rows of the hits that cannot be told apart *)
Definition distinct_hits (round5 : Q -> Q) (hits : list thit) : Prop :=
  forall i j a b, nth_error hits i = Some a -> nth_error hits j = Some b -> i <> j ->
    ~ (round5 (tX a) == round5 (tX b) /\ round5 (tY a) == round5 (tY b) /\ round5 (tZ a) == round5 (tZ b)).
