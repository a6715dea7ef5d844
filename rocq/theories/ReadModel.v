(** Model of the generators of events in cities/components.py: hits_and_kdst_from_files, dst_from_files, MC_hits_from_files, dhits_from_files and mcsensors_from_file *)
From Coq Require Import String.
From Verif Require Import Base PeaksModel Arrays ConfigModel McModel.
Local Open Scope Q_scope.

(** A generator gives some items and then ends, perhaps with an exception. The exception of a file ends the loop over files. *)
Definition generated (A : Type) : Type := list A * option pyexc.
(** for components.py 617-657: hits_and_kdst_from_files *)
Fixpoint over_files {F A} (read : F -> generated A) (files : list F) : generated A :=
  match files with
  | [] => ([], None)
  | f :: fs => match read f with
               | (l, Some e) => (l, Some e)
               | (l, None) => let (m, e) := over_files read fs in (l ++ m, e)
               end
  end.

(** pandas unique: the distinct values in order of appearance *)
Definition unique_events (l : list Z) : list Z := McModel.unique l.

(** for components.py 719-733 *)
Definition NoSuchNodeError : pyexc := Other 36.
(** for components.py 535-565 *)
Definition SensorIDMismatch : pyexc := Other 41.

(** components.py 447-451: get_run_number; the table of runs may be missing or empty. Both cases are caught by the generators below. *)
Definition run_of (runs : option (list Z)) : option Z := match runs with Some (r :: _) => Some r | _ => None end.

Section Hits.
  (** the rows of the table of hits and of the table of pointlike events *)
  Context {H K : Type}.
  Variable h_event : H -> Z.
  Variable k_event : K -> Z.

  (** a file: None is a missing table. Run/events has the event number and the time *)
  Record hfile := { f_hits : option (list H); f_kdst : option (list K); f_runs : option (list Z); f_events : option (list (Z * Q)) }.
  (** for components.py 629-657 *)
  Record hitem := { i_hits : list H; i_kdst : list K; i_run : Z; i_event : Z; i_time : Q }.

  (** components.py 629-657: one file of hits_and_kdst_from_files *)
  Definition hits_and_kdst_from_file (f : hfile) : generated hitem :=
    match f_hits f, f_kdst f with
    | Some hits, Some kdst =>
      match run_of (f_runs f), f_events f with
      | Some run, Some events =>
        if (List.length events =? List.length (unique_events (map k_event kdst)))%nat then
          (map (fun '(ev, t) => {| i_hits := filter (fun h => Z.eqb (h_event h) ev) hits; i_kdst := filter (fun k => Z.eqb (k_event k) ev) kdst;
                                   i_run := run; i_event := ev; i_time := t |}) events, None)
        else ([], Some InvalidInputFileStructure)
      | _, _ => ([], None)
      end
    | _, _ => ([], None)
    end.
  (** components.py 617-657: hits_and_kdst_from_files *)
  Definition hits_and_kdst_from_files (files : list hfile) : generated hitem := over_files hits_and_kdst_from_file files.

  (** components.py 661-679: dst_from_files *)
  Record dst_item := { t_dst : list H; t_run : Z; t_events : list Z; t_times : list Q }.
  (** for components.py 661-679: dst_from_files *)
  Definition dst_from_file (f : hfile) : generated dst_item :=
    match f_hits f, run_of (f_runs f), f_events f with
    | Some dst, Some run, Some events => ([ {| t_dst := dst; t_run := run; t_events := map fst events; t_times := map snd events |} ], None)
    | _, _, _ => ([], None)
    end.
  (** components.py 661-679: dst_from_files *)
  Definition dst_from_files (files : list hfile) : generated dst_item := over_files dst_from_file files.
End Hits.
Arguments hfile H K : clear implicits. Arguments hitem H K : clear implicits.

(** a row of the table of deconvolved hits; the columns that are there only with Xpeak are together *)
Record dhit := { d_event : Z; d_npeak : nat; d_pos : Q * Q * Q; d_Q : Q; d_E : Q; d_more : option (Q * Q * Q * Q * Z * Q) }.
(** components.py 741-746: the charge is replaced by the energy *)
Definition patch (h : dhit) : dhit := {| d_event := d_event h; d_npeak := d_npeak h; d_pos := d_pos h; d_Q := d_E h; d_E := d_E h; d_more := d_more h |}.

Section Deconvolved.
  Context {K : Type}.
  Variable k_event : K -> Z.
  (** for components.py 734-751 *)
  Record ditem := { x_hits : list dhit; x_kdst : option (list K); x_run : Z; x_event : Z; x_time : Q }.

  (** components.py 734-751: the loop over events *)
  Fixpoint dhits_events (hits : list dhit) (kdst : option (list K)) (run : Z) (table : list (Z * Q)) (events : list Z) : generated ditem :=
    match events with
    | [] => ([], None)
    | ev :: events =>
      match filter (fun '(e, _) => Z.eqb e ev) table with
      | [] => ([], Some IndexError)
      | (_, t) :: _ =>
        let item := {| x_hits := map patch (filter (fun h => Z.eqb (d_event h) ev) hits);
                       x_kdst := option_map (filter (fun k => Z.eqb (k_event k) ev)) kdst; x_run := run; x_event := ev; x_time := t |} in
        let (l, e) := dhits_events hits kdst run table events in (item :: l, e)
      end
    end.
  (** components.py 719-733: one file of dhits_from_files *)
  Definition dhits_from_file (f : hfile dhit K) : generated ditem :=
    match f_hits f with
    | None => ([], None)
    | Some hits =>
      match run_of (f_runs f) with
      | None => ([], None)
      | Some run =>
        match f_events f with
        | None => ([], Some NoSuchNodeError)
        | Some table => dhits_events hits (f_kdst f) run table (unique_events (map d_event hits))
        end
      end
    end.
  (** components.py 708-751: dhits_from_files *)
  Definition dhits_from_files (files : list (hfile dhit K)) : generated ditem := over_files dhits_from_file files.
End Deconvolved.

(** components.py 160-206: create_timestamp; [u] is the number between 0 and 1 that is drawn. units.hertz is 1e-9 *)
Definition hertz : Q := 1 # 1000000000.
(** for components.py 160-204: create_timestamp *)
Definition safe_rate (rate : Q) : Q := if Qeqb rate 0 then (1 # 2) * hertz else if Qltb rate 0 then Qabs rate else rate.
(** components.py 160-204: create_timestamp *)
Definition create_timestamp (rate : Q) (event : Z) (u : Q) : Q :=
  let period := 1 / safe_rate rate in Qabs (inject_Z event * period) + u * period.

Section Simulated.
  Context {H : Type}.
  Variable h_event : H -> Z.

  (** groupby(level=0): the keys in increasing order *)
  Fixpoint insert_z (a : Z) (l : list Z) : list Z :=
    match l with [] => [a] | b :: l' => if (a =? b)%Z then l else if (a <? b)%Z then a :: l else b :: insert_z a l' end.
  (** for components.py 683-704: MC_hits_from_files *)
  Definition sorted_events (l : list Z) : list Z := fold_right insert_z [] l.
  (** for components.py 683-704: MC_hits_from_files *)
  Record mcitem := { c_event : Z; c_hits : list H; c_time : Q }.
  (** components.py 683-704: MC_hits_from_files. The names of the particles and labels are not modelled. None is a file without hits.
      [draw n] is the n-th number drawn. *)
  Definition mc_groups (hits : list H) : list (Z * list H) :=
    map (fun ev => (ev, filter (fun h => Z.eqb (h_event h) ev) hits)) (sorted_events (map h_event hits)).
  (** components.py 683-704: MC_hits_from_files *)
  Definition MC_hits_from_files (rate : Q) (draw : nat -> Q) (files : list (option (list H))) : list mcitem :=
    mapi (fun n '(ev, hits) => {| c_event := ev; c_hits := hits; c_time := create_timestamp rate ev (draw n) |})
         (flat_map (fun f => match f with None => [] | Some hits => mc_groups hits end) files).
End Simulated.

(** a row of the response of the sensors in a simulation file, and the same with a time; the time is NaN when the sensor has no binning *)
Record sresp := { r_event : Z; r_sensor : Z; r_bin : Z; r_charge : Q }.
(** for mcinfo_io.py 850-878: convert_timebin_to_time *)
Record stime := { s_event : Z; s_sensor : Z; s_name : string; s_time : option Q; s_charge : Q }.

(** mcinfo_io.py 850-878: convert_timebin_to_time; the positions have the number and the type of each sensor, the binning has a width for each type *)
Definition widths_of (bins : list (string * Q)) (name : string) : list (option Q) :=
  match filter (fun '(n, _) => String.eqb n name) bins with [] => [None] | l => map (fun '(_, w) => Some w) l end.
(** mcinfo_io.py 850-878: convert_timebin_to_time *)
Definition convert_timebin_to_time (resp : list sresp) (bins : list (string * Q)) (pos : list (Z * string)) : list stime :=
  flat_map (fun r =>
    flat_map (fun '(id, name) => if Z.eqb id (r_sensor r) then
        map (fun w => {| s_event := r_event r; s_sensor := r_sensor r; s_name := name; s_time := option_map (fun w => w * inject_Z (r_bin r)) w; s_charge := r_charge r |}) (widths_of bins name)
      else []) pos) resp.

(** a simulation file of the format of 2020 *)
Record mcfile := { m_resp : list sresp; m_bins : list (string * Q); m_pos : list (Z * string); m_events : list Z }.
(** for components.py 509-565: mcsensors_from_file *)
Record mcsensors := { e_event : Z; e_time : Q; e_pmt : list stime; e_sipm : list stime }.

Section Sensors.
  (** components.py 543: the name contains "pmt" in any case *)
  Variable is_pmt_name : string -> bool.
  (** components.py 533: the numbers of the PMTs in the database *)
  Variable pmt_ids : list Z.

  (** components.py 535-565: one file of mcsensors_from_file; an event without response gives empty tables *)
  Definition sensors_of_file (f : mcfile) : generated (Z * (list stime * list stime)) :=
    let rows := convert_timebin_to_time (m_resp f) (m_bins f) (m_pos f) in
    let isin id := existsb (Z.eqb id) pmt_ids in
    if forallb (fun '(id, name) => negb (is_pmt_name name) || isin id) (m_pos f) then
      (map (fun ev => let of_event := filter (fun r => Z.eqb (s_event r) ev) rows in
                      (ev, (filter (fun r => isin (s_sensor r)) of_event, filter (fun r => negb (isin (s_sensor r))) of_event))) (m_events f), None)
    else ([], Some SensorIDMismatch).
  (** components.py 509-565: mcsensors_from_file *)
  Definition mcsensors_from_file (rate : Q) (draw : nat -> Q) (files : list mcfile) : generated mcsensors :=
    let (l, e) := over_files sensors_of_file files in
    (mapi (fun n '(ev, (p, s)) => {| e_event := ev; e_time := create_timestamp rate ev (draw n); e_pmt := p; e_sipm := s |}) l, e).
End Sensors.
