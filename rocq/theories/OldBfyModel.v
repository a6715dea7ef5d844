(** Model of a run of buffy over simulation files of both formats: cities/buffy.py 51-144 *)
From Coq Require Import String.
From Verif Require ReadModel.
From Verif Require Import Base SbinModel BuffersModel BfyModel OldLightModel.

(** a file, of the format before 2020 or of that of 2020 *)
Inductive anyfile := OldFile (o : ofile) | NewFile (n : nfile).
Section Any.
  Variable float : string -> option Q.
  Variable unit : string -> option Q.
  Variable is_pmt_name : string -> bool.
  Variables pmt_db sipm_db : list nat.
  Variables (db : string) (run : Z).
  (** mcinfo_io.py 351-376: whether the file is old, and its configuration *)
  Definition conf_of (f : anyfile) : sfile := match f with OldFile o => option_map (pair true) (of_conf o) | NewFile n => option_map (pair false) (nf_conf n) end.
  (** components.py 535-565 *)
  Definition sensors_of_any (f : anyfile) : ReadModel.generated (Z * (list ReadModel.stime * list ReadModel.stime)) :=
    match f with OldFile o => sensors_of_ofile float unit (map Z.of_nat pmt_db) db run o | NewFile n => sensors_of_nfile float unit is_pmt_name pmt_db n end.
  (** buffy.py 51-144, as in BfyModel.v *)
  Definition buffy_any (mus : Q) (b : bconf) (rate : Q) (draw : nat -> Q) (files : list anyfile) : result (option bfy_tables) :=
    rbind (check_max_time mus (cf_max b) (cf_buffer b)) (fun mt =>
    match pmt_and_sipm_bin_width_safe float unit (map conf_of files) with
    | Err (Other 36) => Ok None
    | Err e => Err e
    | Ok (pw, sw) =>
      let (items, e) := ReadModel.over_files sensors_of_any files in
      rbind (buffy_all pmt_db sipm_db (readout b mt pw sw) rate draw items nothing_read) (fun o => match e with None => Ok (Some o) | Some e => Err e end)
    end).
End Any.
