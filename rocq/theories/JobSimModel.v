(** Model of buffy and detsim with a range of events (see JobModel.v) *)
From Coq Require Import String Qround.
From Verif Require ReadModel.
From Verif Require Import Base Arrays ConfigModel TablesModel SbinModel PeaksModel BuffersModel DetsimModel S1Model DsimModel FrunModel BfyModel DetModel.
From Verif Require JobModel.
Local Open Scope nat_scope.

(** buffy.py 51-144; [draw n] is the number drawn for the time of the event number n of those sent on *)
Definition buffy_range float unit is_pmt_name pmt_db sipm_db (r : JobModel.range) (mus : Q) (b : bconf) (rate : Q) (draw : nat -> Q) (files : list nfile) : result (option bfy_tables) :=
  rbind (check_max_time mus (cf_max b) (cf_buffer b)) (fun mt =>
  match pmt_and_sipm_bin_width_safe float unit (map (fun f => option_map (pair false) (nf_conf f)) files) with
  | Err (Other 36) => Ok None
  | Err e => Err e
  | Ok (pw, sw) =>
    let (items, e) := JobModel.ranged r (ReadModel.over_files (sensors_of_nfile float unit is_pmt_name pmt_db) files) in
    rbind (buffy_all pmt_db sipm_db (readout b mt pw sw) rate draw items nothing_read) (fun o => match e with None => Ok (Some o) | Some e => Err e end)
  end).
(** detsim.py 153-292. The times are drawn as the events are read, those that the range drops included; [rn n] are the other numbers drawn for the event number n of those sent on *)
Definition detsim_range sqrtQ emitted s1_lt s1_sensors p lt_pmt lt_sipm ACTIVE BUFFER pmt_db sipm_db rn (r : JobModel.range) (mus : Q) (b : bconf) (pw sw : Q) (rate : Q) (draw : nat -> Q) (files : list hfile) : result det_tables :=
  rbind (check_max_time mus (cf_max b) (cf_buffer b)) (fun mt =>
  let (items, e) := JobModel.ranged r (det_items rate draw files, None) in
  rbind (detsim_all sqrtQ emitted s1_lt s1_sensors p lt_pmt lt_sipm ACTIVE BUFFER pmt_db sipm_db rn (readout b mt pw sw) items nothing_simulated) (fun o => match e with None => Ok o | Some e => Err e end)).
