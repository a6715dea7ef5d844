(** Model of a run of hypathia over files (invisible_cities/cities/hypathia.py 58-173), with the reader of waveforms (ConfigModel.v), the light of an event
    (HypaModel.v) and the writers that it shares with irene (FrunModel.v) *)
From Coq Require Import String.
From Verif Require Import Base ConfigModel TablesModel PeaksModel PmapioModel CalibModel IreneModel HypaModel FrunModel.
Local Open Scope nat_scope.

(** the random numbers that hypathia draws in an event: those of the charge of each sample of each PMT (hypathia.py 97-99) and each SiPM (sensor_functions.py
    80-88), and the dark counts and electronics noise of the SiPMs (random_sampling.py 162-168) *)
Record hyp_randoms := { hr_pmt : nat -> nat -> Q -> Q; hr_sipm : nat -> nat -> Q -> Q; hr_noise : list (list Q) }.

(** hypathia.py 87-169, for the event number [i] of the run, with waveforms of [wl] samples for the PMTs and [nss] for the SiPMs *)
Definition step_of (rn : nat -> hyp_randoms) (pmts : list pmt_row) (sipms : list sim_row) (p : hparams) (wl nss : nat) (i : nat) (pmtrd sipmrd : list (list Q)) : result (option (list peak * list peak)) :=
  hypathia_step (hr_pmt (rn i)) (hr_sipm (rn i)) pmts sipms p nss {| cols := wl; rows := pmtrd |} sipmrd (hr_noise (rn i)).

(** hypathia.py 58-173, for all the events of the files: what it writes in the file and what it counts. The range of events, the copy of the simulation (C73)
    and the constants of the database are left out. The function itself returns None, as it does not return the counts. *)
Definition hypathia f32 rn pmts sipms p wl nss (open_file : string -> mcrd_file) (paths : list string) : result irene_tables :=
  pmaps_of_files f32 (step_of rn pmts sipms p wl nss) (List.length pmts) open_file paths.
