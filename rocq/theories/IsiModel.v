(** Model of a run of isidora: cities/isidora.py 37-84, with the reader of waveforms (ConfigModel.v), the deconvolution (IreneModel.v) and the writers of its tables *)
From Coq Require Import String.
From Verif Require Import Base ConfigModel TablesModel PeaksModel CalibModel IreneModel NoiseModel FeeModel HypaModel TrigModel DioModel PreadModel FrunModel.
Local Open Scope nat_scope.

(** what isidora writes and counts: the rows of BLR/pmtcwf, BLR/sipmrwf, Run/runInfo, Run/events, the list of event numbers and the number of events in *)
Record isi_tables := { si_cwf : list (list (list Z)); si_sipm : list (list (list Z)); si_runs : list Z; si_events : list (Z * Q); si_numbers : list Z; si_in : nat }.
(** for isidora.py 37-84 *)
Definition nothing_restored : isi_tables := {| si_cwf := []; si_sipm := []; si_runs := []; si_events := []; si_numbers := []; si_in := 0 |}.

(** components.py 754-761: sensor_data, the shapes of the arrays of the first file *)
Record shapes := { n_pmt : nat; pmt_wl : nat; n_sipm : nat; sipm_wl : nat }.

Section Isidora.
  Variable butter : Q -> Q * Q * Q.
  Variable sqrt : Q -> Q.
  Variables (pmts : list pmt_row) (n_baseline : nat) (s : shapes).

  (** isidora.py 54, 58-59 and 76-77: the waveforms of an event are deconvolved, and given the shape of the table and its type, int16, as they are written (rwf_io.py 52-66) *)
  Definition isidora_event (w : rwf_event) : result (list (list Z)) :=
    rbind (deconv_pmt butter sqrt pmts n_baseline (w_pmt w)) (fun cwf =>
    if negb (fits_table (n_pmt s) (pmt_wl s) cwf) then Err ValueError else
    rbind (rmap (rmap store_float) cwf) (fun z =>
    if negb (fits_table (n_sipm s) (sipm_wl s) (w_sipm w)) then Err ValueError else Ok z)).
  (** isidora.py 70-79 *)
  Fixpoint isidora_all (events : list rwf_event) (o : isi_tables) : result isi_tables :=
    match events with
    | [] => Ok o
    | w :: events =>
      rbind (isidora_event w) (fun z =>
      isidora_all events {| si_cwf := si_cwf o ++ [z]; si_sipm := si_sipm o ++ [w_sipm w]; si_runs := si_runs o ++ [w_run w]; si_events := si_events o ++ [w_event w];
                            si_numbers := si_numbers o ++ [fst (w_event w)]; si_in := S (si_in o) |})
    end.
  (** isidora.py 37-84, for all the events of the files: the range of events and the copy of the simulation are left out (C73) *)
  Definition isidora (open_file : string -> rwf_file) (paths : list string) : result isi_tables :=
    let (events, e) := wf_from_files open_file paths in
    rbind (isidora_all events nothing_restored) (fun o => match e with None => Ok o | Some e => Err e end).
End Isidora.
