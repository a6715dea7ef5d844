(** Model of the calibration cities, from the raw waveforms of the events in range to the spectra that are written: cities/phyllis.py 67-166,
    cities/trude.py 60-133, cities/berenice.py 51-125 and sipm_processing of calib/calib_sensors_functions.py *)
From Verif Require Import Base Arrays PeaksModel CalibModel BuffersModel HistModel IreneModel.
Local Open Scope nat_scope.

(** types/symbols.py 118-121 and 134-140; the last ones are values that are not members *)
Inductive pmt_calib_mode := Gain | GainMaw | GainNodeconv | PmtModeOther.
(** for calib_sensors_functions.py 162-169 *)
Inductive sipm_calib_mode := SubMode | SubMedian | SubModeCalibrate | SubMeanCalibrate | SubMedianCalibrate | SubBaselineCalibrate | SipmModeOther.
(** min_bin, max_bin, bin_width; number_integrals, integral_start, integral_width, integrals_period *)
Record bins_conf := { bc_min : Q; bc_max : Q; bc_width : Q }.
(** for phyllis.py 67-142 *)
Record integrals_conf := { ic_number : nat; ic_start : Q; ic_width : Q; ic_period : Q }.
(** for phyllis.py 67-142 *)
Definition edges_of (c : bins_conf) : list Q := bin_edges (bc_min c) (bc_max c) (bc_width c).

(** operator.add of two arrays of histograms, with the broadcasting of numpy over the sensors: the histograms have the same bins *)
Definition add_broadcast (a b : list (list nat)) : result (list (list nat)) :=
  if length a =? length b then Ok (map2 (map2 Nat.add) a b) else
  match a, b with
  | _, [h] => Ok (map (fun r => map2 Nat.add r h) a)
  | [r], _ => Ok (map (fun h => map2 Nat.add r h) b)
  | _, _ => Err ValueError
  end.
(** histogram_io.py 32-33: the array is given the shape of the table *)
Definition write_hist (n : nat) (h : list (list nat)) : result (list (list nat)) := if length h =? n then Ok h else Err ValueError.

Section Run.
  Context {W : Type}.
  (** a branch of the fork: what is done with the waveforms before they are binned *)
  Definition branch := W -> result (list (list Q)).
  (** an event goes through the branches, one after the other: its values are binned and added to those accumulated *)
  Fixpoint one_event (edges : list Q) (bs : list branch) (accs : list (list (list nat))) (ev : W) : result (list (list (list nat))) :=
    match bs, accs with
    | f :: bs, a :: accs => rbind (f ev) (fun v => rbind (bin_waveforms v edges) (fun h => rbind (add_broadcast a h) (fun a =>
                            rbind (one_event edges bs accs ev) (fun accs => Ok (a :: accs)))))
    | _, _ => Ok []
    end.
  (** for dataflow.py 252-261 *)
  Fixpoint all_events (edges : list Q) (bs : list branch) (accs : list (list (list nat))) (events : list W) : result (list (list (list nat))) :=
    match events with
    | [] => Ok accs
    | ev :: events => rbind (one_event edges bs accs ev) (fun accs => all_events edges bs accs events)
    end.
  (** fl.push over the events, from accumulators of zeros (dataflow.py 252-261), and the writing of the tables *)
  Definition calibration_city (n : nat) (edges : list Q) (bs : list branch) (events : list W) : result (list (list (list nat))) :=
    rbind (all_events edges bs (repeat (zeros n edges) (length bs)) events) (rmap (write_hist n)).
End Run.

(** integrals of the waveforms, which have [ns] samples *)
Definition integrals (ns : nat) (limits : list Z) (wfs : list (list Q)) : result (list (list Q)) := waveform_integrator {| cols := ns; rows := wfs |} limits.

Section Phyllis.
  Variable butter : Q -> Q * Q * Q.
  Variable sqrt : Q -> Q.
  (** deconv_pmt with mask = False (components.py 434) *)
  Definition all_pmts (db : list pmt_row) : list pmt_row :=
    map (fun d => {| pm_id := pm_id d; pm_active := true; pm_clean := pm_clean d; pm_blr := pm_blr d; pm_gain := pm_gain d |}) db.
  (** an array indexed with a list of positions *)
  Fixpoint take_rows {A} (positions : list nat) (l : list A) : result (list A) :=
    match positions with
    | [] => Ok []
    | i :: positions => match nth_error l i with Some a => rbind (take_rows positions l) (fun r => Ok (a :: r)) | None => Err IndexError end
    end.
  (** phyllis.py 159-164: mode_subtractor; without rows numpy.apply_along_axis raises ValueError *)
  Definition mode_subtractor (db : list pmt_row) (rwf : list (list Z)) : result (list (list Q)) :=
    match rwf with
    | [] => Err ValueError
    | _ => rbind (subtract_baseline BlsMode rwf) (take_rows (filter (fun i => nth i (map pm_active db) false) (seq 0 (length db))))
    end.
  (** phyllis.py 86-89 and 145-156 *)
  Definition pmt_processing (db : list pmt_row) (mode : pmt_calib_mode) (n_baseline n_maw : nat) : result (list (list Z) -> result (list (list Q))) :=
    match mode with
    | Gain => Ok (deconv_pmt butter sqrt (all_pmts db) n_baseline)
    | GainMaw => Ok (fun rwf => rbind (deconv_pmt butter sqrt (all_pmts db) n_baseline rwf) (pmt_subtract_maw n_maw))
    | GainNodeconv => Ok (mode_subtractor db)
    | PmtModeOther => Err ValueError
    end.
  (** phyllis.py 67-142: the spectra with and without light. t_sample is 25 ns (sierpe/fee.py 26). The waveforms of all the files have the
      [ns] samples of those of the first one. The processing that precedes the fork is written in each branch. *)
  Definition phyllis (db : list pmt_row) (mode : pmt_calib_mode) (n_baseline n_maw : nat) (b : bins_conf) (c : integrals_conf) (ns : nat) (events : list (list (list Z)))
    : result (list (list (list nat))) :=
    rbind (pmt_processing db mode n_baseline n_maw) (fun proc =>
    rbind (valid_integral_limits 25 (ic_number c) (ic_start c) (ic_width c) (ic_period c) (Z.of_nat ns)) (fun '(light, dark) =>
    calibration_city (length db) (edges_of b) [fun ev => rbind (proc ev) (integrals ns light); fun ev => rbind (proc ev) (integrals ns dark)] events)).
End Phyllis.

(** calib_sensors_functions.py 162-169: sipm_processing, called with the waveforms only: the functions that calibrate lack an argument *)
Definition sipm_processing (mode : sipm_calib_mode) (wfs : list (list Z)) : result (list (list Q)) :=
  match mode with
  | SubMode => subtract_baseline BlsMode wfs
  | SubMedian => subtract_baseline BlsMedian wfs
  | _ => Err TypeError
  end.
(** trude.py 60-133: a sample of the SiPMs is 1 mus *)
Definition trude (nsipm : nat) (mode : sipm_calib_mode) (b : bins_conf) (c : integrals_conf) (ns : nat) (events : list (list (list Z))) : result (list (list (list nat))) :=
  match mode with
  | SipmModeOther => Err ValueError
  | _ =>
    rbind (valid_integral_limits 1000 (ic_number c) (ic_start c) (ic_width c) (ic_period c) (Z.of_nat ns)) (fun '(light, dark) =>
    calibration_city nsipm (edges_of b) [fun ev => rbind (sipm_processing mode ev) (integrals ns light); fun ev => rbind (sipm_processing mode ev) (integrals ns dark)] events)
  end.
(** berenice.py 51-125: the spectra of the samples in adc and, with the constants of the database, in pes *)
Definition berenice (nsipm : nat) (gains : list Q) (b : bins_conf) (events : list (list (list Z))) : result (list (list (list nat))) :=
  calibration_city nsipm (edges_of b) [subtract_baseline BlsMode; fun ev => calibrate_sipms BlsMode ev gains; fun ev => calibrate_sipms BlsMedian ev gains] events.
