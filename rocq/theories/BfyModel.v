(** Model of a run of buffy over simulation files of the format of 2020: cities/buffy.py 51-144, with the reader of the sensors (ReadModel.v), the
    sampling periods (SbinModel.v), the buffers of an event (BuffersModel.v) and the writer of the buffers *)
From Coq Require Import String Qround.
From Verif Require ReadModel.
From Verif Require Import Base ConfigModel TablesModel SbinModel PeaksModel BuffersModel NoiseModel FeeModel HypaModel TrigModel DioModel FrunModel.
Local Open Scope nat_scope.

(** a simulation file: the tables MC/configuration (None when it is not there), MC/sns_response, MC/sns_positions, and the numbers of its events *)
Record nfile := { nf_conf : option (list conf_row); nf_resp : list ReadModel.sresp; nf_pos : list (Z * string); nf_events : list Z }.
(** the configuration of the city (buffy.py 51-63) *)
Record bconf := { cf_buffer : Q; cf_max : Q; cf_pre : Q; cf_thr : Q }.
(** what the city hands to the calculation of the buffers (buffy.py 65-75, 101-113), with the time checked and the periods of the sensors *)
Definition readout (b : bconf) (mt pw sw : Q) : bcfg :=
  {| buffer_len := cf_buffer b; max_time := mt; pre_trigger := cf_pre b; pmt_wid := pw; sipm_wid := sw; trigger_threshold := cf_thr b |}.

(** the rows that a trigger adds to Run/events, Run/eventMap, RD/pmtrd and RD/sipmrd (rwf_io.py 139-167); a row of Run/runInfo goes with it *)
Record brow := { br_event : Z; br_time : Z; br_nexus : Z; br_pmt : list (list Z); br_sipm : list (list Z) }.
(** what buffy writes and counts: the rows of Filters/detected_events, Filters/signal and those of the triggers, the list of event numbers for the copy of the
    simulation, and the numbers of events in and with response *)
Record bfy_tables := { bt_detected : list (Z * bool); bt_signal : list (Z * bool); bt_rows : list brow; bt_numbers : list Z; bt_in : nat; bt_resp : nat }.
(** for buffy.py 51-144 *)
Definition nothing_read : bfy_tables := {| bt_detected := []; bt_signal := []; bt_rows := []; bt_numbers := []; bt_in := 0; bt_resp := 0 |}.

(** evm/nh5.py 13-15: the column of the times is of unsigned integers, that drops the fraction. A negative time is not modelled *)
Definition store_time (t : Q) : result Z := if Qltb t 0 then Err NotModelled else Ok (Qfloor t).
(** rwf_io.py 52-66: the array is given the shape of the table and its type, int16 *)
Definition store_array (n len : nat) (m : mat) : result (list (list Z)) :=
  if negb (fits_table n len (rows m)) then Err ValueError else rmap (rmap store_float) (rows m).

Section Buffy.
  Variable float : string -> option Q.
  Variable unit : string -> option Q.
  (** components.py 543: the name contains "pmt" in any case *)
  Variable is_pmt_name : string -> bool.
  (** the numbers of the PMTs and the SiPMs in the database *)
  Variables pmt_db sipm_db : list nat.

  (** components.py 535-565: one file. The times of its rows need its configuration (mcinfo_io.py 787-793) *)
  Definition sensors_of_nfile (f : nfile) : ReadModel.generated (Z * (list ReadModel.stime * list ReadModel.stime)) :=
    match nf_conf f with
    | None => ([], Some NoSuchNodeError)
    | Some conf =>
      match get_sensor_binning float unit false conf with
      | Err e => ([], Some e)
      | Ok bins => ReadModel.sensors_of_file is_pmt_name (map Z.of_nat pmt_db) {| ReadModel.m_resp := nf_resp f; ReadModel.m_bins := bins; ReadModel.m_pos := nf_pos f; ReadModel.m_events := nf_events f |}
      end
    end.
  (** a row of the response, as the functions that make the buffers see it: a time that is not a number and a negative number of sensor are not modelled *)
  Definition to_simrow (s : ReadModel.stime) : result simrow :=
    match ReadModel.s_time s with
    | None => Err NotModelled
    | Some t => if (ReadModel.s_sensor s <? 0)%Z then Err NotModelled else Ok {| sid := Z.to_nat (ReadModel.s_sensor s); stime := t; scharge := ReadModel.s_charge s |}
    end.

  (** rwf_io.py 155-167: one trigger *)
  Definition store_row (c : bcfg) (r : out_row) : result brow :=
    rbind (store_time (time_stamp r)) (fun t =>
    rbind (store_array (List.length pmt_db) (Z.to_nat (Qtrunc (buffer_len c / pmt_wid c))) (eng r)) (fun p =>
    rbind (store_array (List.length sipm_db) (Z.to_nat (Qtrunc (buffer_len c / sipm_wid c))) (trk r)) (fun s =>
    Ok {| br_event := evt_number r; br_time := t; br_nexus := nexus_evt r; br_pmt := p; br_sipm := s |}))).

  (** buffy.py 123-141 and components.py 1389-1431: the events, one after the other; [rate] and [draw] give the time of each. An event with a trigger
      has rows, so that the filter of the signal is whether there are rows *)
  Fixpoint buffy_all (c : bcfg) (rate : Q) (draw : nat -> Q) (items : list (Z * (list ReadModel.stime * list ReadModel.stime))) (o : bfy_tables) : result bfy_tables :=
    match items with
    | [] => Ok o
    | (ev, (p, s)) :: items =>
      if (match p with [] => true | _ => false end) || (match s with [] => true | _ => false end) then
        buffy_all c rate draw items
          {| bt_detected := bt_detected o ++ [(ev, false)]; bt_signal := bt_signal o; bt_rows := bt_rows o; bt_numbers := bt_numbers o; bt_in := S (bt_in o); bt_resp := bt_resp o |}
      else
        rbind (rmap to_simrow p) (fun p =>
        rbind (rmap to_simrow s) (fun s =>
        rbind (buffy_event c pmt_db sipm_db {| sim_evt := ev; sim_time := ReadModel.create_timestamp rate ev (draw (bt_in o)); sim_pmts := p; sim_sipms := s |}) (fun out =>
        rbind (rmap (store_row c) out) (fun stored =>
        let passed := match out with [] => false | _ => true end in
        buffy_all c rate draw items
          {| bt_detected := bt_detected o ++ [(ev, true)]; bt_signal := bt_signal o ++ [(ev, passed)]; bt_rows := bt_rows o ++ stored;
             bt_numbers := bt_numbers o ++ (if passed then [ev] else []); bt_in := S (bt_in o); bt_resp := S (bt_resp o) |}))))
    end.

  (** buffy.py 51-144, for all the events of the files: the range of events and the copy of the simulation are left out (C73). None: the city returns
      zero events before it creates the output file, as no file has the periods of the sensors *)
  Definition buffy_run (mus : Q) (b : bconf) (rate : Q) (draw : nat -> Q) (files : list nfile) : result (option bfy_tables) :=
    rbind (check_max_time mus (cf_max b) (cf_buffer b)) (fun mt =>
    match pmt_and_sipm_bin_width_safe float unit (map (fun f => option_map (pair false) (nf_conf f)) files) with
    | Err (Other 36) => Ok None
    | Err e => Err e
    | Ok (pw, sw) =>
      let (items, e) := ReadModel.over_files sensors_of_nfile files in
      rbind (buffy_all (readout b mt pw sw) rate draw items nothing_read) (fun o => match e with None => Ok (Some o) | Some e => Err e end)
    end).
End Buffy.

(** the file, as wf_from_files sees it (components.py 447-473, 568-589); there is no group Trigger. The waveforms are integers *)
Definition buffy_file (run : Z) (o : bfy_tables) : mcrd_file :=
  {| h_events := Some (map (fun r => (br_event r, inject_Z (br_time r))) (bt_rows o)); h_run := Some (map (fun _ => run) (bt_rows o));
     h_pmt := Some (map (fun r => map (map inject_Z) (br_pmt r)) (bt_rows o)); h_sipm := Some (map (fun r => map (map inject_Z) (br_sipm r)) (bt_rows o)); h_trg := None; h_chn := None |}.
