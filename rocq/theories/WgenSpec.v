(** Specification for C132: the shape of a square pulse *)
From Verif Require Import Base PeaksModel WgenModel.
Local Open Scope Q_scope.

(** the sample in which the pulse is back at 0 *)
Definition pulse_end (w : wfmpar) : nat := (t_pre w + t_rise w + t_flat w + t_rise w)%nat.
(** [x] is the value at sample [i] of a pulse that rises from 0, is flat and goes back to 0 *)
Definition pulse (w : wfmpar) (i : nat) (x : Q) : Prop :=
  ((i <= t_pre w)%nat -> x == 0) /\
  ((t_pre w <= i <= t_pre w + t_rise w)%nat -> x * qn (t_rise w) == q_s2 w * qn (i - t_pre w)) /\
  ((t_pre w + t_rise w <= i <= t_pre w + t_rise w + t_flat w)%nat -> x == q_s2 w) /\
  ((t_pre w + t_rise w + t_flat w <= i <= pulse_end w)%nat -> x * qn (t_rise w) == q_s2 w * qn (pulse_end w - i)) /\
  ((pulse_end w <= i)%nat -> x == 0).
(** [x] is the value at sample [i] of a tooth: from 0 to the charge, flat, and from the charge to 0, both ends included *)
Definition tooth_length (w : wfmpar) : nat := (2 * t_rise w + t_flat w)%nat.
Definition tooth_value (w : wfmpar) (i : nat) (x : Q) : Prop :=
  ((i < t_rise w)%nat -> x * qn (t_rise w - 1) == q_s2 w * qn i) /\
  ((t_rise w <= i < t_rise w + t_flat w)%nat -> x == q_s2 w) /\
  ((t_rise w + t_flat w <= i)%nat -> x * qn (t_rise w - 1) == q_s2 w * qn (tooth_length w - 1 - i)).
