(** Specification for C131: versions of the activities, and rows in force in a run *)
From Coq Require Import String.
From Verif Require Import Base PeaksModel DbModel RadioModel.
Local Open Scope Z_scope.

(** [r] is, of the rows of its volume and isotope, one with the greatest version that is not above [v] *)
Definition newest (t : list arow) (v : Z) (r : arow) : Prop :=
  In r t /\ a_version r <= v /\ forall s, In s t -> a_volume s = a_volume r -> a_isotope s = a_isotope r -> a_version s <= v -> a_version s <= a_version r.
(** no two values of the same volume, isotope and version *)
Definition unambiguous (t : list arow) : Prop := forall r s, In r t -> In s t -> a_volume s = a_volume r -> a_isotope s = a_isotope r -> a_version s = a_version r -> a_value s = a_value r.

(** a row is in force in a run, whose sign does not count *)
Definition in_force {A} (run : Z) (d : dated A) : Prop := from d <= Z.abs run /\ forall m, upto d = Some m -> Z.abs run <= m.
