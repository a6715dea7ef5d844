(** Vocabulary for C101 *)
From Verif Require Import Base CalibModel CalibSpec HistSpec IreneModel TrigSpec CalcModel.
Local Open Scope nat_scope.

(** the waveform [y] is the waveform [w] without its baseline; samples that are 0 are left alone *)
Definition subtracted (m : bls_mode) (w : list Z) (y : list Q) : Prop :=
  exists b, is_baseline m w b /\ Forall2 (fun x v => v = if (x =? 0)%Z then 0%Q else (inject_Z x - b)%Q) w y.
(** in photoelectrons; a sensor without a positive constant has zeros *)
Definition in_pes (gain : Q) (y z : list Q) : Prop := Forall2 (fun a b => b == if Qltb 0 gain then a / gain else 0)%Q y z.
(** what the mode of phyllis makes of the waveform of a PMT *)
Definition own_pmt_wf (butter : Q -> Q * Q * Q) (sqrt : Q -> Q) (mode : pmt_calib_mode) (n_baseline n_maw : nat) (d : pmt_row) (w : list Z) (y : list Q) : Prop :=
  match mode with
  | Gain => deconvolved_wf butter sqrt n_baseline d w y
  | GainMaw => exists c, deconvolved_wf butter sqrt n_baseline d w c /\ length y = length c /\ forall k, k < length c -> (nth k y 0 == nth k c 0 - moving_average n_maw c k)%Q
  | GainNodeconv => subtracted BlsMode w y
  | PmtModeOther => False
  end.
Definition own_sipm_wf (mode : sipm_calib_mode) (w : list Z) (y : list Q) : Prop :=
  match mode with SubMode => subtracted BlsMode w y | SubMedian => subtracted BlsMedian w y | _ => False end.

(** the windows of the configuration that are within the waveforms, and those without light, which end 2 mus before the beginning of each one *)
Definition first_sample (sw : Q) (c : integrals_conf) : Z := Qfloor (ic_start c * 1000 / sw).
Definition n_samples (sw : Q) (c : integrals_conf) : Z := Qceiling (ic_width c * 1000 / sw).
Definition n_period (sw : Q) (c : integrals_conf) : Z := Qceiling (ic_period c * 1000 / sw).
Definition all_light (sw : Q) (c : integrals_conf) : list (Z * Z) := windows (ic_number c) (first_sample sw c) (n_samples sw c) (n_period sw c).
Definition all_dark (sw : Q) (c : integrals_conf) : list (Z * Z) :=
  windows (ic_number c) (first_sample sw c - n_samples sw c - Qfloor (2 * 1000 / sw)) (n_samples sw c) (n_period sw c).
Definition within (ns : nat) (ws : list (Z * Z)) : list (Z * Z) := filter (inside (Z.of_nat ns)) ws.
Record good_integrals (sw : Q) (c : integrals_conf) (ns : nat) : Prop := {
  gi_width : (0 < n_samples sw c < n_period sw c)%Z;
  gi_half : half_out (Z.of_nat ns) (all_light sw c) /\ half_out (Z.of_nat ns) (all_dark sw c);
  gi_some : within ns (all_light sw c) <> [] /\ within ns (all_dark sw c) <> [];
  gi_end : forall w, In w (within ns (all_light sw c) ++ within ns (all_dark sw c)) -> (snd w < Z.of_nat ns)%Z }.
Definition good_bins (b : bins_conf) : Prop := (0 < bc_width b)%Q /\ (bc_min b < bc_max b)%Q.

(** the sums of the samples of a waveform in the windows *)
Definition window_sums (ws : list (Z * Z)) (wf : list Q) : list Q := map (fun w => sumQ (slice (Z.to_nat (fst w)) (Z.to_nat (snd w)) wf)) ws.
(** [h] is, for each of the [n] sensors, the histogram of what [values] takes from its waveform in every event *)
Definition spectrum_of (n : nat) (edges : list Q) (values : list Q -> list Q) (waveforms : list (list (list Q))) (h : list (list nat)) : Prop :=
  is_spectrum edges n (fun s => flat_map (fun wfs => values (nth s wfs [])) waveforms) h.
(** raw waveforms: one for each sensor, with [ns] samples *)
Definition good_event (n ns : nat) (ev : list (list Z)) : Prop := length ev = n /\ Forall (fun w => length w = ns) ev.
