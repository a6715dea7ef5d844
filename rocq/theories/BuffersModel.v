(** Model of the simulation of the readout buffers:
    invisible_cities/detsim/buffer_functions.py, detsim/sensor_utils.py,
    the buffer writer of io/rwf_io.py and the city cities/buffy.py.
    Times and charges are rational numbers (the rounding of floats is not modelled). *)
From Coq Require Import Qround.
From Verif Require Import Base PeaksModel.
Local Open Scope Z_scope.

(** int(x) of a float: truncation towards zero; a // b is floor(a / b) *)
Definition Qtrunc (q : Q) : Z := if Qltb q 0 then Qceiling q else Qfloor q.
(** for buffer_functions.py 93-98 *)
Definition fdiv (a b : Q) : Z := Qfloor (a / b).

(** np.arange(start, stop, step) for step > 0 *)
Definition arange (start stop step : Q) : list Q :=
  map (fun i => start + qn i * step)%Q (seq 0 (Z.to_nat (Qceiling ((stop - start) / step)))).

(** one row of the dataframe of simulated sensor responses *)
Record simrow := { sid : nat; stime : Q; scharge : Q }.

(** buffer_functions.py 13-14: weighted_histogram.  np.histogram: bins are half-open
    except the last one, which is closed. *)
Definition in_bin (lo hi : Q) (is_last : bool) (t : Q) : bool :=
  Qle_bool lo t && (Qltb t hi || (is_last && Qeqb t hi)).
(** buffer_functions.py 13-14: weighted_histogram *)
Fixpoint weighted_histogram (data : list simrow) (edges : list Q) : list Q :=
  match edges with
  | lo :: (hi :: rest) as t =>
      sumF scharge (filter (fun r => in_bin lo hi (match rest with [] => true | _ => false end) (stime r)) data)
      :: weighted_histogram data t
  | _ => []
  end.

(** groupby('sensor_id'): one group per id, ids in increasing order *)
Fixpoint insert_id (i : nat) (l : list nat) : list nat :=
  match l with
  | [] => [i]
  | j :: l' => if (i <? j)%nat then i :: l else if (i =? j)%nat then l else j :: insert_id i l'
  end.
(** for buffy.py 65, 123-141 *)
Definition group_ids (rows : list simrow) : list nat := fold_right (fun r l => insert_id (sid r) l) [] rows.

(** buffer_functions.py 17-40: bin_sensors.  [time_edges] is the variable [bins]. *)
Definition time_edges (bin_width t_min t_max max_buffer : Q) : list Q :=
  let max_time := Qmin t_max (t_min + max_buffer) in
  let min_bin  := (inject_Z (Qfloor   (t_min    / bin_width)) * bin_width)%Q in
  let max_bin  := (inject_Z (Qceiling (max_time / bin_width)) * bin_width)%Q in
  arange min_bin (max_bin + bin_width) bin_width.
(** for buffy.py 65, 123-141 *)
Record binned := { b_ids : list nat; b_wfs : mat }.
(** for buffy.py 65, 123-141 *)
Definition bin_sensors (sensors : list simrow) (bin_width t_min t_max max_buffer : Q) : list Q * binned :=
  let edges := time_edges bin_width t_min t_max max_buffer in
  (removelast edges,
   {| b_ids := group_ids sensors;
      b_wfs := {| cols := length edges - 1;
                  rows := map (fun i => weighted_histogram (filter (fun r => (sid r =? i)%nat) sensors) edges)
                              (group_ids sensors) |} |}).

(** buffer_functions.py 45-65: find_signal_start *)
Definition find_signal_start (wfs : mat) (bin_threshold : Q) (stand_off : Z) : result (list nat) :=
  match indices_above_threshold (sum_over_sensors wfs) bin_threshold with
  | [] => Ok []
  | indices => rmap (fun pulse => rbind (ends pulse) (fun e => Ok (fst e))) (split_in_peaks indices stand_off)
  end.

(** l[a:b] with python's reading of negative bounds *)
Definition py_bound (n : nat) (z : Z) : nat :=
  if z <? 0 then Z.to_nat (Z.of_nat n + z) else Nat.min n (Z.to_nat z).
(** for buffer_functions.py 118-121 *)
Definition py_slice (a b : Z) (m : mat) : mat :=
  mslice (py_bound (cols m) a) (py_bound (cols m) b) m.

(** buffer_functions.py 68-72: pad_safe.  With no sensor the array has padding + 1 columns. *)
Definition pad_safe (m : mat) (p0 p1 : nat) : mat :=
  match rows m with
  | [] => {| cols := p0 + p1 + 1; rows := [] |}
  | _ => {| cols := p0 + cols m + p1;
            rows := map (fun r => repeat 0%Q p0 ++ r ++ repeat 0%Q p1) (rows m) |}
  end.

(** the configuration of the readout (cities/buffy.py 51-63) *)
Record bcfg := {
  buffer_len : Q; max_time : Q; pre_trigger : Q; pmt_wid : Q; sipm_wid : Q; trigger_threshold : Q }.

(** buffer_functions.py 93-98 *)
Definition pmt_buffer_samples  (c : bcfg) : Z := fdiv (buffer_len c) (pmt_wid c).
(** for buffer_functions.py 100-129: generate_slice *)
Definition sipm_buffer_samples (c : bcfg) : Z := fdiv (buffer_len c) (sipm_wid c).
(** for buffer_functions.py 100-129: generate_slice *)
Definition sipm_pretrg         (c : bcfg) : Z := fdiv (pre_trigger c) (sipm_wid c).
(** for buffer_functions.py 100-129: generate_slice *)
Definition sipm_postrg         (c : bcfg) : Z := sipm_buffer_samples c - sipm_pretrg c.
(** for buffer_functions.py 100-129: generate_slice *)
Definition pmt_pretrg_base     (c : bcfg) : Z := fdiv (pre_trigger c) (pmt_wid c).
(** for buffer_functions.py 100-129: generate_slice *)
Definition pmt_postrg_base     (c : bcfg) : Z := pmt_buffer_samples c - pmt_pretrg_base c.

(** buffer_functions.py 113: np.where(sipm_bins <= t)[0][-1] *)
Definition trigger_bin (sipm_bins : list Q) (t : Q) : result nat :=
  rbind (ends (np_where (fun x => Qle_bool x t) sipm_bins)) (fun e => Ok (snd e)).

(** buffer_functions.py 118-121 / 123-126: cut the window [pos - pre, pos + post) and pad *)
Definition cut_and_pad (m : mat) (n_bin : nat) (pos pre post : Z) : mat :=
  pad_safe (py_slice (Z.max 0 (pos - pre)) (Z.min (Z.of_nat n_bin) (pos + post)) m)
           (Z.to_nat (- Z.min 0 (pos - pre)))
           (Z.to_nat (Z.max 0 (pos + post - Z.of_nat n_bin))).

(** buffer_functions.py 100-129: generate_slice *)
Definition generate_slice (c : bcfg) (pmt_bins : list Q) (pmt_charge : mat)
           (sipm_bins : list Q) (sipm_charge : mat) (trigger : nat) : result (mat * mat) :=
  match nth_error pmt_bins trigger with
  | None => Err IndexError
  | Some t =>
    rbind (trigger_bin sipm_bins t) (fun trg_bin =>
    let bin_corr   := fdiv (t - nth trg_bin sipm_bins 0%Q) (pmt_wid c) in
    let pmt_pretrg := pmt_pretrg_base c + bin_corr in
    let pmt_postrg := pmt_postrg_base c - bin_corr in
    Ok (cut_and_pad pmt_charge  (length pmt_bins)  (Z.of_nat trigger) pmt_pretrg pmt_postrg,
        cut_and_pad sipm_charge (length sipm_bins) (Z.of_nat trg_bin) (sipm_pretrg c) (sipm_postrg c)))
  end.

(** buffer_functions.py 132-151: position_signal *)
Definition position_signal (c : bcfg) (triggers : list nat) (pmt_bins : list Q) (pmt_charge : mat)
           (sipm_bins : list Q) (sipm_charge : mat) : result (list (mat * mat)) :=
  rmap (generate_slice c pmt_bins pmt_charge sipm_bins sipm_charge) triggers.

(** sensor_utils.py 14-37: trigger_times (IndexError when an index is out of range) *)
Definition trigger_times (triggers : list nat) (event_time : Q) (bins : list Q) : result (list Q) :=
  rmap (fun i => match nth_error bins i with Some t => Ok (event_time + t)%Q | None => Err IndexError end) triggers.

(** sensor_utils.py 40-51: first_and_last_times; min/max of an empty column are nan,
    but buffy keeps only the events where both dataframes have rows *)
Definition minQ (l : list Q) : result Q :=
  match l with [] => Err NotModelled | a :: l => Ok (fold_left Qmin l a) end.
(** for sensor_utils.py 40-51: first_and_last_times *)
Definition maxQ (l : list Q) : result Q :=
  match l with [] => Err NotModelled | a :: l => Ok (fold_left Qmax l a) end.
(** sensor_utils.py 40-51: first_and_last_times *)
Definition first_and_last_times (pmts sipms : list simrow) (pw sw : Q) : result (Q * Q) :=
  rbind (minQ (map stime pmts)) (fun p0 => rbind (minQ (map stime sipms)) (fun s0 =>
  rbind (maxQ (map stime pmts)) (fun p1 => rbind (maxQ (map stime sipms)) (fun s1 =>
  Ok (Qmin p0 s0, (Qmax p1 s1 + Qmin pw sw)%Q))))).

(** sensor_utils.py 54-82: sensor_order.  [ids] are the sensor ids of the database, in
    database order.  numpy would broadcast a response with a single row or column; that
    case and every other shape mismatch is the error ValueError here. *)
Definition positions (ids seen : list nat) : list nat :=
  np_where (fun i => existsb (Nat.eqb i) seen) ids.
(** for sensor_utils.py 65-70: ordering *)
Fixpoint set_rows (base : list (list Q)) (ord : list nat) (vals : list (list Q)) : list (list Q) :=
  match ord, vals with
  | o :: ord, v :: vals => set_rows (firstn o base ++ v :: skipn (S o) base) ord vals
  | _, _ => base
  end.
(** for sensor_utils.py 65-70: ordering *)
Definition to_int (q : Q) : Q := inject_Z (Qtrunc q).
(** sensor_utils.py 65-70: ordering *)
Definition ordering (ord : list nat) (resp : mat) (n_sensors len : nat) : result mat :=
  if negb (length ord =? length (rows resp))%nat || negb (cols resp =? len)%nat then Err ValueError
  else Ok {| cols := len;
             rows := set_rows (repeat (repeat 0%Q len) n_sensors) ord (map (map to_int) (rows resp)) |}.
(** sensor_utils.py 72-81: order_and_pad *)
Definition order_and_pad (pmt_db sipm_db : list nat) (pmt_seen sipm_seen : list nat) (len_pmt len_sipm : nat)
           (b : mat * mat) : result (mat * mat) :=
  rbind (ordering (positions pmt_db pmt_seen) (fst b) (length pmt_db) len_pmt) (fun p =>
  rbind (ordering (positions sipm_db sipm_seen) (snd b) (length sipm_db) len_sipm) (fun s =>
  Ok (p, s))).

(** rwf_io.py 69-72 *)
Definition ic_event_number_base (max_subevt nexus_event : Z) : Z := nexus_event * max_subevt.

(** rwf_io.py 139-167: write_buffers, as the list of rows it appends: run info, event
    map and the two waveforms.  zip stops at the shorter list. *)
Record out_row := { evt_number : Z; time_stamp : Q; nexus_evt : Z; eng : mat; trk : mat }.
(** for rwf_io.py 139-167: write_buffers *)
Fixpoint write_from (i : Z) (base nexus : Z) (times : list Q) (events : list (mat * mat)) : list out_row :=
  match times, events with
  | t :: times, (e, k) :: events =>
      {| evt_number := base + i; time_stamp := t; nexus_evt := nexus; eng := e; trk := k |}
      :: write_from (i + 1) base nexus times events
  | _, _ => []
  end.
(** rwf_io.py 139-167: write_buffers *)
Definition write_buffers (max_subevt nexus : Z) (times : list Q) (events : list (mat * mat)) : list out_row :=
  write_from 0 (ic_event_number_base max_subevt nexus) nexus times events.

(** components.py 1350-1371: check_max_time; [mus] is the unit *)
Definition check_max_time (mus max_time buffer_length : Q) : result Q :=
  if negb (Qeqb (max_time / mus) (inject_Z (Qfloor (max_time / mus)))) then Err ValueError
  else if Qltb max_time buffer_length then Ok buffer_length else Ok max_time.

(** components.py 1375-1434: calculate_and_save_buffers, for one event; [order] is the
    optional reordering.  An event without trigger is filtered out. *)
Definition stand_off (c : bcfg) : Z := Qtrunc (buffer_len c / pmt_wid c).
(** for buffy.py 65, 123-141 *)
Definition max_subevt (c : bcfg) : Z := Qceiling (max_time c / buffer_len c).
(** for buffy.py 65, 123-141 *)
Definition save_buffers (c : bcfg) (order : mat * mat -> result (mat * mat))
           (nexus : Z) (timestamp : Q) (pmt_bins : list Q) (pmts : mat) (sipm_bins : list Q) (sipms : mat)
  : result (list out_row) :=
  rbind (find_signal_start pmts (trigger_threshold c) (stand_off c)) (fun pulses =>
  match pulses with
  | [] => Ok []
  | _ =>
    rbind (trigger_times pulses timestamp pmt_bins) (fun times =>
    rbind (position_signal c pulses pmt_bins pmts sipm_bins sipms) (fun buffers =>
    rbind (rmap order buffers) (fun ordered =>
    Ok (write_buffers (max_subevt c) nexus times ordered))))
  end).

(** buffy.py 77-141: one simulated event; [pmt_db] and [sipm_db] are the sensor ids of
    the database.  Events without PMT or without SiPM response are filtered out. *)
Record simevent := { sim_evt : Z; sim_time : Q; sim_pmts : list simrow; sim_sipms : list simrow }.
(** for buffy.py 65, 123-141 *)
Definition buffy_event (c : bcfg) (pmt_db sipm_db : list nat) (e : simevent) : result (list out_row) :=
  match sim_pmts e, sim_sipms e with
  | [], _ | _, [] => Ok []
  | _, _ =>
    rbind (first_and_last_times (sim_pmts e) (sim_sipms e) (pmt_wid c) (sipm_wid c)) (fun '(t_min, t_max) =>
    let '(pmt_bins, pmts)   := bin_sensors (sim_pmts e)  (pmt_wid c)  t_min t_max (max_time c) in
    let '(sipm_bins, sipms) := bin_sensors (sim_sipms e) (sipm_wid c) t_min t_max (max_time c) in
    save_buffers c (order_and_pad pmt_db sipm_db (b_ids pmts) (b_ids sipms)
                      (Z.to_nat (Qtrunc (buffer_len c / pmt_wid c))) (Z.to_nat (Qtrunc (buffer_len c / sipm_wid c))))
                 (sim_evt e) (sim_time e) pmt_bins (b_wfs pmts) sipm_bins (b_wfs sipms))
  end.

(** buffy.py 65, 123-141: the file written by a run.  [configured] has the max_time of the
    configuration file, which check_max_time may replace. *)
Definition buffy (mus : Q) (configured : bcfg) (pmt_db sipm_db : list nat) (events : list simevent)
  : result (list out_row) :=
  rbind (check_max_time mus (max_time configured) (buffer_len configured)) (fun mt =>
  let c := {| buffer_len := buffer_len configured; max_time := mt; pre_trigger := pre_trigger configured;
              pmt_wid := pmt_wid configured; sipm_wid := sipm_wid configured;
              trigger_threshold := trigger_threshold configured |} in
  rbind (rmap (buffy_event c pmt_db sipm_db) events) (fun files => Ok (concat files))).
