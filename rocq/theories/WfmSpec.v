(** Independent vocabulary for the waveform and sensor selection properties *)
From Verif Require Import Base.
Local Open Scope Q_scope.

(** sample [j] is above threshold or in the kept neighbourhood of such a sample:
    [p] samples before it and [p - 1] after it, the last sample of the waveform excluded *)
Definition kept (wf : list Q) (thr : Q) (p j : nat) : Prop :=
  thr < nth j wf 0 \/
  exists i, (i < length wf)%nat /\ thr < nth i wf 0 /\ (i - p <= j < i + p)%nat /\ (j + 1 < length wf)%nat.

(** two points are closer than [d] / not farther than [d] *)
Definition distance2 (p q : Q * Q) : Q := (fst p - fst q) * (fst p - fst q) + (snd p - snd q) * (snd p - snd q).
Definition near (d : Q) (p q : Q * Q) : Prop := 0 < d /\ distance2 p q < d * d.
Definition reached (r : Q) (p q : Q * Q) : Prop := 0 <= r /\ distance2 p q <= r * r.

(** [i] is selected in the mask *)
Definition sel (m : list bool) (i : nat) : Prop := nth i m false = true.

(** [f] returns the positions of its argument from the smallest to the largest value *)
Definition argsort_ok (f : list Q -> list nat) : Prop :=
  forall l, Permutation (f l) (seq 0 (length l)) /\ StronglySorted (fun i j => nth i l 0 <= nth j l 0) (f l).
