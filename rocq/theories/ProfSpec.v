(** What a binned average is *)
From Verif Require Import Base PeaksModel.
From Verif Require Export CorrSpec.
Local Open Scope Q_scope.

(** [l] are the values of the rows for which [P] holds, one for each row *)
Definition values_of {A} (rows : list A) (value : A -> Q) (P : A -> Prop) (l : list Q) : Prop :=
  exists keep, (forall r, In r rows -> (keep r = true <-> P r)) /\ l = map value (filter keep rows).
Definition in_limits (r : option (Q * Q)) (y : Q) : Prop := match r with None => True | Some (a, b) => a <= y /\ y < b end.
(** the sample variance *)
Definition sample_variance (l : list Q) (v : Q) : Prop := exists m, is_mean l m /\ v * (qn (length l) - 1) == sumF (fun y => (y - m) * (y - m)) l.
(** the spread of the values: of the sample, or of its mean *)
Definition is_deviation (root : Q -> Q) (std : bool) (l : list Q) (d : option Q) : Prop :=
  ((length l <= 1)%nat /\ d = None) \/ ((1 < length l)%nat /\ exists v, sample_variance l v /\ d = Some (if std then root v else root v / root (qn (length l)))).
