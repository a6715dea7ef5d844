(** Vocabulary for C103 *)
From Verif Require Import Base PeaksModel PeaksSpec PmapioModel HitsModel HitsSpec CorrModel CorrSpec EsmModel EsmSpec SophModel SophSpec SoeModel.
Local Open Scope Q_scope.

(** some SiPM is over threshold in a sample of the rebinned peak, or in none *)
Definition lights_up (charges : list nat -> list Q -> Q -> list Q) (thr : Q) (p : peak) : Prop := exists k, (k < length (p_times p))%nat /\ lit charges thr p k <> [].
(** the PMTs see light in every sample *)
Definition bright (p : peak) : Prop := forall k, (k < length (p_times p))%nat -> 0 < energy_at p k.
(** the light of the PMTs in all the peaks *)
Definition event_energy (ps : list (nat * peak)) : Q := sumF (fun ip => peak_energy (snd ip)) ps.
(** the row [h] is the hit [q] as it was made, but for its energy *)
Definition row_of_hit (q : shit) (h : hit) : Prop := npeak h = q_npeak q /\ hX h = q_X q /\ hY h = q_Y q /\ hZ h = q_Z q /\ hQ h = q_Q q.
Definition with_position (q : shit) : bool := negb (Qeqb (q_Q q) HitsModel.NN).
(** the hits that are written, after the optional correction *)
Definition corrected_as (corr : option corrections) (merged out : list hit) : Prop :=
  match corr with
  | None => out = merged
  | Some k => exists dv, velocity (k_dvs k) (k_z k) dv /\ Forall2 (corrected_hit (k_map k) dv) merged out
  end.
(** corrections that can be done: a map with values, a table of velocities when Z is asked for, and no correction in time *)
Definition usable_corrections (corr : option corrections) : Prop :=
  match corr with None => True | Some k => usable_map (k_map k) (k_method k) (k_xy k) /\ k_temp k = false /\ (k_z k = true -> numbers (k_dvs k) <> []) end.
