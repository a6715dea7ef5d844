(** Vocabulary for the statements about an event of Beersheba *)
From Verif Require Import Base PeaksModel PsfModel PsfSpec DeconvModel DeconvSpec DeconvPeak HitsModel.
Local Open Scope Q_scope.

(** the row of the dataframe that stands for a hit: its peak, position, charge and energies E and Ec *)
Definition row_of (h : hit) (d : dhit) : Prop :=
  exists e ec, hE h = Some e /\ hEc h = Some ec /\ d_peak d = [inject_Z (Z.of_nat (npeak h))] /\
  dX d = hX h /\ dY d = hY h /\ dZ d = hZ h /\ dQ d = hQ h /\ dvars d = [e; ec].
(** the rows of a peak that are not isolated: with another sensor nearby (two distances) or in a large cluster (three distances) *)
Definition not_isolated (distance : list Q) (nhits : option Z) (hits kept : list dhit) : Prop :=
  match distance, nhits with
  | [dx; dy], _ => survivors (has_neighbour dx dy hits) hits kept
  | [dx; dy; dz], Some n => NoDup kept /\ forall h, In h kept <-> In h hits /\ in_large_cluster dx dy dz n hits h
  | _, _ => False
  end.
(** [kept] are the hits of a peak that are above the charge cut and then are not isolated; apart from labels and energies they are unchanged *)
Definition clean (q_cut : Q) (distance : list Q) (nhits : option Z) (hits kept : list dhit) : Prop :=
  exists charged charged' connected, survivors (fun h => q_cut < dQ h) hits charged /\ Forall2 same_hit charged charged' /\
    not_isolated distance nhits charged' connected /\ Forall2 same_hit connected kept.
(** the distances and the number of hits of the configuration are sensible *)
Definition sensible (distance : list Q) (nhits : option Z) : Prop :=
  match distance, nhits with
  | [dx; dy], _ => True
  | [dx; dy; dz], Some n => ~ dx == 0 /\ ~ dy == 0 /\ ~ dz == 0 /\ (1 <= n)%Z
  | _, _ => False
  end.
