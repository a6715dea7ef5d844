(** What the image given to the deconvolution is *)
From Verif Require Import Base.
Local Open Scope Q_scope.

(** coordinate [d] of hit [k] *)
Definition coordinate (data : list (list Q)) (d k : nat) : Q := nth k (nth d data []) 0.
(** [v] is the light of the hits for which [P] holds *)
Definition light_of (weight : list Q) (P : nat -> Prop) (v : Q) : Prop :=
  exists ks, NoDup ks /\ (forall k, In k ks <-> (k < length weight)%nat /\ P k) /\ v == sumF (fun k => nth k weight 0) ks.
(** [x] is in the bin of width [w] centred at [p] *)
Definition around (w p x : Q) : Prop := p - w / 2 <= x /\ x < p + w / 2.
Definition least (m : Q) (l : list Q) : Prop := In m l /\ forall x, In x l -> m <= x.
Definition greatest (m : Q) (l : list Q) : Prop := In m l /\ forall x, In x l -> x <= m.
(** [grid] is the part of the detector's grid up to one bin and a half away from the hits *)
Definition close_to (c : list Q) (w : Q) (eps : Q) (g : Q) : Prop :=
  exists lo hi, least lo c /\ greatest hi c /\ lo - (3 # 2) * w <= g /\ g < hi + (3 # 2) * w + eps.
(** [x] is between the ends of the grid and [g] is the nearest point of the grid, the higher one at the same distance of two *)
Definition takes (grid : list Q) (g x : Q) : Prop :=
  (exists a, In a grid /\ a <= x) /\ (exists b, In b grid /\ x <= b) /\
  (forall h, In h grid -> h < g -> (h + g) / 2 <= x) /\ (forall h, In h grid -> g < h -> x < (g + h) / 2).
Definition evenly (s : Q) (grid : list Q) : Prop := forall i a b, nth_error grid i = Some a -> nth_error grid (S i) = Some b -> b == a + s.
(** the place at which the light of a point of the grid is reported *)
Definition reported (grid : list Q) (s : Q) (i : nat) (g p : Q) : Prop :=
  let first := (i =? 0)%nat in let last := (S i =? length grid)%nat in
  p == g + (if first && negb last then s / 4 else 0) - (if last && negb first then s / 4 else 0).
