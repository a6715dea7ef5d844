(** Independent vocabulary for voxels, tracks and blobs *)
From Verif Require Import Base PaolinaModel.
From Coq Require Import Relations.
Local Open Scope Q_scope.

Definition hits_energy (l : list phit) : Q := sumF pe l.
Definition voxels_energy (l : list voxel) : Q := sumF vE l.

(** the hit is inside the voxel, the lower faces included *)
Definition inside (v : voxel) (h : phit) : Prop :=
  (vx v - szx v / 2 <= px h < vx v + szx v / 2) /\
  (vy v - szy v / 2 <= py h < vy v + szy v / 2) /\
  (vz v - szz v / 2 <= pz h < vz v + szz v / 2).

(** all the voxels have the same, positive, size *)
Definition same_size (vs : list voxel) : Prop :=
  forall u v, In u vs -> In v vs -> szx u == szx v /\ szy u == szy v /\ szz u == szz v.

(** the distance between the centres, in units of the size of the voxels, is below the contiguity value *)
Definition adjacent (c : contiguity) (u v : voxel) : Prop :=
  ((vx u - vx v) / szx u) * ((vx u - vx v) / szx u) + ((vy u - vy v) / szy u) * ((vy u - vy v) / szy u) +
  ((vz u - vz v) / szz u) * ((vz u - vz v) / szz u) < cvalue c * cvalue c.

(** joined by a chain of adjacent voxels of [vs] *)
Definition connected (c : contiguity) (vs : list voxel) : voxel -> voxel -> Prop :=
  clos_refl_trans voxel (fun u v => In u vs /\ In v vs /\ adjacent c u v).

(** a voxel changes only in its energy and in the energies of its hits; the other columns of the hits stay *)
Definition same_hit_position (h h' : phit) : Prop := px h' = px h /\ py h' = py h /\ pz h' = pz h /\ pother h' = pother h.
Definition same_place (v v' : voxel) : Prop :=
  vid v' = vid v /\ vx v' = vx v /\ vy v' = vy v /\ vz v' = vz v /\ szx v' = szx v /\ szy v' = szy v /\ szz v' = szz v /\
  Forall2 same_hit_position (vhits v) (vhits v').

(** voxels made of hits with positive energy, as built by voxelize_hits *)
Definition filled (v : voxel) : Prop :=
  vhits v <> [] /\ (forall h, In h (vhits v) -> 0 < pe h) /\ vE v == hits_energy (vhits v).
(** voxels without hits, with positive energy *)
Definition bare (v : voxel) : Prop := vhits v = [] /\ 0 < vE v.

(** what is used of the shortest paths: all the voxels of the track are there, and different
    voxels are at a positive distance *)
Definition paths_ok (paths : list voxel -> list voxel * (voxel -> voxel -> Q)) : Prop :=
  forall t, NoDup (map vid t) -> Permutation (fst (paths t)) t /\
            forall u v, In u t -> In v t -> u <> v -> 0 < snd (paths t) u v.

(** closer than [r] to the point [c] *)
Definition closer_than (r : Q) (c : Q * Q * Q) (h : phit) : Prop :=
  0 < r /\ (px h - fst (fst c)) * (px h - fst (fst c)) + (py h - snd (fst c)) * (py h - snd (fst c)) +
           (pz h - snd c) * (pz h - snd c) < r * r.

(** the voxel in the middle of a blob: the end of the track, or the voxel within the big radius
    of it that has most energy within the small radius *)
Definition blob_voxel (nodes : list voxel) (dist : nat -> nat -> Q) (small : Q) (big : option Q) (ext v : voxel) : Prop :=
  match big with
  | None => v = ext
  | Some r =>
    let around x e := exists l, NoDup l /\ (forall u, In u l <-> In u nodes /\ dist (vid x) (vid u) < small) /\ e == voxels_energy l in
    In v nodes /\ dist (vid ext) (vid v) <= r /\
    forall u eu ev, In u nodes -> dist (vid ext) (vid u) <= r -> around u eu -> around v ev -> eu <= ev
  end.
