(** Model of the files of the calibration cities: cities/phyllis.py 67-145, cities/trude.py 60-132 and cities/berenice.py 51-111, writer by writer, from the files of raw
    waveforms to the tables that they leave, whether they end, fail or are stopped. The spectra are those of CalcModel.v. *)
From Coq Require Import String.
From Verif Require Import Base ConfigModel TablesModel PeaksModel CalibModel BuffersModel HistModel IreneModel CalcModel.
From Verif Require Import FrunModel IsiModel.
From Verif Require Import JobModel HaltBase.
Local Open Scope nat_scope.

(** Run/runInfo, Run/events, the tables of HIST with their names, and the group Sensors. A table of HIST is created without rows and is given one row, the histograms of all
    the sensors; its bins, written with it, are left out. *)
Record calf (S : Type) := { cf_runs : list Z; cf_events : list (Z * Q); cf_spectra : list (string * list (list (list nat))); cf_sensors : option S }.
Arguments cf_runs {S}. Arguments cf_events {S}. Arguments cf_spectra {S}. Arguments cf_sensors {S}.
(** with cities/phyllis.py 67-145 *)
Definition no_calf {S} : calf S := {| cf_runs := []; cf_events := []; cf_spectra := []; cf_sensors := None |}.

(** What is decided before the file is created: the names of the tables, the number of sensors, the edges of the bins and what is done with the waveforms of an event for
    each of the spectra *)
Record setup := { su_names : list string; su_sensors : nat; su_edges : list Q; su_branches : list (@branch rwf_event) }.
(** phyllis.py 86-111 and 132-133; [s]: the shapes of the waveforms of the first file *)
Definition phyllis_setup butter sqrt (db : list pmt_row) (mode : pmt_calib_mode) (n_baseline n_maw : nat) (b : bins_conf) (c : integrals_conf) (s : shapes) : result setup :=
  rbind (pmt_processing butter sqrt db mode n_baseline n_maw) (fun proc =>
  rbind (valid_integral_limits 25 (ic_number c) (ic_start c) (ic_width c) (ic_period c) (Z.of_nat (pmt_wl s))) (fun '(light, dark) =>
  Ok {| su_names := ["pmt_spe"; "pmt_dark"]%string; su_sensors := List.length db; su_edges := edges_of b;
        su_branches := [fun ev => rbind (proc (w_pmt ev)) (integrals (pmt_wl s) light); fun ev => rbind (proc (w_pmt ev)) (integrals (pmt_wl s) dark)] |})).
(** trude.py 76-98 and 119-120 *)
Definition trude_setup (mode : sipm_calib_mode) (b : bins_conf) (c : integrals_conf) (s : shapes) : result setup :=
  match mode with
  | SipmModeOther => Err ValueError
  | _ =>
    rbind (valid_integral_limits 1000 (ic_number c) (ic_start c) (ic_width c) (ic_period c) (Z.of_nat (sipm_wl s))) (fun '(light, dark) =>
    Ok {| su_names := ["sipm_spe"; "sipm_dark"]%string; su_sensors := n_sipm s; su_edges := edges_of b;
          su_branches := [fun ev => rbind (sipm_processing mode (w_sipm ev)) (integrals (sipm_wl s) light); fun ev => rbind (sipm_processing mode (w_sipm ev)) (integrals (sipm_wl s) dark)] |})
  end.
(** berenice.py 63-77 and 96-98 *)
Definition berenice_setup (gains : list Q) (b : bins_conf) (s : shapes) : result setup :=
  Ok {| su_names := ["adc"; "mode"; "median"]%string; su_sensors := n_sipm s; su_edges := edges_of b;
        su_branches := [fun ev => subtract_baseline BlsMode (w_sipm ev); fun ev => calibrate_sipms BlsMode (w_sipm ev) gains; fun ev => calibrate_sipms BlsMedian (w_sipm ev) gains] |}.

Section File.
  Context {S : Type}.
  Variable su : setup.

  (** io/run_and_event_io.py 25-27 *)
  Definition write_run (w : rwf_event) (t : calf S) : calf S := {| cf_runs := cf_runs t ++ [w_run w]; cf_events := cf_events t; cf_spectra := cf_spectra t; cf_sensors := cf_sensors t |}.
  (** for phyllis.py 132-134 *)
  Definition write_event (w : rwf_event) (t : calf S) : calf S := {| cf_runs := cf_runs t; cf_events := cf_events t ++ [w_event w]; cf_spectra := cf_spectra t; cf_sensors := cf_sensors t |}.
  (** phyllis.py 132-134, trude.py 119-121, berenice.py 96-99: the branches of the fork, of which the last one writes the event; the histograms are accumulated in memory *)
  Fixpoint send_events (accs : list (list (list nat))) (events : list rwf_event) : prog (calf S) (list (list (list nat))) :=
    match events with
    | [] => ret accs
    | w :: events =>
      accs <- call (one_event (su_edges su) (su_branches su) accs w) ;;
      put (write_run w) ;;;
      put (write_event w) ;;;
      send_events accs events
    end.
  (** io/histogram_io.py 7-36: the table is created, and then given its row, if the histograms are as many as the sensors *)
  Definition new_spectrum (name : string) (t : calf S) : calf S := {| cf_runs := cf_runs t; cf_events := cf_events t; cf_spectra := cf_spectra t ++ [(name, [])]; cf_sensors := cf_sensors t |}.
  (** for phyllis.py 117-143 *)
  Fixpoint fill_last (h : list (list nat)) (l : list (string * list (list (list nat)))) : list (string * list (list (list nat))) :=
    match l with [] => [] | [(name, rows)] => [(name, rows ++ [h])] | a :: l => a :: fill_last h l end.
  (** for phyllis.py 117-143 *)
  Definition fill_spectrum (h : list (list nat)) (t : calf S) : calf S := {| cf_runs := cf_runs t; cf_events := cf_events t; cf_spectra := fill_last h (cf_spectra t); cf_sensors := cf_sensors t |}.
  (** for phyllis.py 117-143 *)
  Definition write_spectrum (x : string * list (list nat)) : prog (calf S) unit :=
    put (new_spectrum (fst x)) ;;;
    h <- call (write_hist (su_sensors su) (snd x)) ;;
    put (fill_spectrum h).
  (** calib/calib_functions.py 127-137: the group Sensors of the first file is copied, if it has one *)
  Definition copy_sensor_table (sensors : option S) (t : calf S) : calf S :=
    {| cf_runs := cf_runs t; cf_events := cf_events t; cf_spectra := cf_spectra t; cf_sensors := match sensors with Some s => Some s | None => cf_sensors t end |}.
  (** phyllis.py 117-143, trude.py 104-130, berenice.py 81-109 *)
  Definition fill_file (sensors : option S) (source : list rwf_event * option pyexc) : prog (calf S) unit :=
    accs <- send_events (repeat (zeros (su_sensors su) (su_edges su)) (List.length (su_branches su))) (fst source) ;;
    match snd source with
    | Some e => raise e
    | None => each (combine (su_names su) accs) write_spectrum ;;; put (copy_sensor_table sensors)
    end.
End File.

(** A run: [sensors_of] is the group Sensors of a file of input. Without files, files_in[0] raises IndexError. *)
Definition calibration_run {S} (su : setup) (sensors_of : string -> option S) (open_file : string -> rwf_file) (r : range) (paths : list string) : prog (calf S) unit :=
  match paths with
  | [] => raise IndexError
  | first :: _ => fill_file su (sensors_of first) (ranged r (wf_from_files open_file paths))
  end.
