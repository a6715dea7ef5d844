(** Independent vocabulary for the properties of the simulated readout *)
From Verif Require Import Base PeaksModel BuffersModel.
Local Open Scope nat_scope.

(** sample [i] of the sum of all sensors is above the threshold *)
Definition total_at (m : mat) (i : nat) : Q := sumF (fun sensor => nth i sensor 0%Q) (rows m).
Definition hot (m : mat) (thr : Q) (i : nat) : Prop := i < cols m /\ (thr < total_at m i)%Q.

(** [i] is a trigger: above threshold, with more than [s] samples since any earlier
    sample above threshold *)
Definition is_trigger (m : mat) (thr : Q) (s : Z) (i : nat) : Prop :=
  hot m thr i /\ forall j, hot m thr j -> j < i -> (s < Z.of_nat i - Z.of_nat j)%Z.

(** sample times of a waveform with [n] samples of width [w] *)
Definition grid (start w : Q) (n : nat) : list Q := map (fun i => start + qn i * w)%Q (seq 0 n).

(** charge of the sample that starts exactly at time [t]; zero when there is none *)
Definition charge_at (start w : Q) (row : list Q) (t : Q) : Q :=
  sumF (fun i => nth i row 0%Q) (filter (fun i => Qeqb (start + qn i * w) t) (seq 0 (length row))).

(** [out] is the piece of the waveforms [m] that begins at time [t0], [n] samples long,
    with zeros where there was no simulated sample *)
Definition window_of (start w : Q) (m out : mat) (t0 : Q) (n : Z) : Prop :=
  Z.of_nat (cols out) = n /\ is_mat out /\ length (rows out) = length (rows m) /\
  forall j k, j < length (rows m) -> k < cols out ->
  (nth k (nth j (rows out) []) 0 == charge_at start w (nth j (rows m) []) (t0 + qn k * w))%Q.

(** charge that the simulation gave to sensor [i] in the half-open time range [lo, hi) *)
Definition sim_charge (data : list simrow) (i : nat) (lo hi : Q) : Q :=
  sumF scharge (filter (fun r => (sid r =? i) && Qle_bool lo (stime r) && Qltb (stime r) hi) data).

(** a sensible readout configuration *)
Record good_cfg (c : bcfg) (r k : nat) : Prop := {
  gc_pw : (0 < pmt_wid c)%Q;
  gc_r : 0 < r;
  gc_sw : (sipm_wid c == qn r * pmt_wid c)%Q;
  gc_k : 0 < k;
  gc_len : (buffer_len c == qn k * pmt_wid c)%Q;
  gc_pre : (0 <= pre_trigger c)%Q;
  gc_post : (pre_trigger c + sipm_wid c <= buffer_len c)%Q;
  gc_max : (buffer_len c <= max_time c)%Q }.

(** Charge that sensor [i] collects in the sample [t, t + w) of a readout that ends at
    time [stop].  A hit exactly at [stop] goes to the last sample, later ones are lost. *)
Definition sample_charge (data : list simrow) (i : nat) (stop w t : Q) : Q :=
  if Qle_bool (t + w) stop then
    sumF scharge (filter (fun r => (sid r =? i) && Qle_bool t (stime r) &&
                                   (Qltb (stime r) (t + w) || (Qeqb (t + w) stop && Qeqb (stime r) stop))) data)
  else 0%Q.

(** [out] has one row per sensor of the database [db], in that order; the row of a
    sensor has [n] samples of width [w], the first one starting at [t0]. *)
Definition buffers_of (data : list simrow) (db : list nat) (stop w t0 : Q) (n : Z) (out : mat) : Prop :=
  Z.of_nat (cols out) = n /\ is_mat out /\ length (rows out) = length db /\
  forall j i k, nth_error db j = Some i -> k < cols out ->
  (nth k (nth j (rows out) []) 0 == to_int (sample_charge data i stop w (t0 + qn k * w)))%Q.

(** total simulated charge of all sensors in the sample [t, t + w) *)
Definition sample_total (data : list simrow) (stop w t : Q) : Q :=
  if Qle_bool (t + w) stop then
    sumF scharge (filter (fun r => Qle_bool t (stime r) &&
                                   (Qltb (stime r) (t + w) || (Qeqb (t + w) stop && Qeqb (stime r) stop))) data)
  else 0%Q.

(** the readout of an event [e]: PMT samples of width [pmt_wid c] start at [p0] and end at
    [stopP], SiPM samples end at [stopS] *)
Definition over (c : bcfg) (e : simevent) (p0 stopP : Q) (n i : nat) : Prop :=
  i < n /\ (trigger_threshold c < sample_total (sim_pmts e) stopP (pmt_wid c) (p0 + qn i * pmt_wid c))%Q.
Definition fires (c : bcfg) (e : simevent) (p0 stopP : Q) (n i : nat) : Prop :=
  over c e p0 stopP n i /\
  forall j, over c e p0 stopP n j -> j < i -> (buffer_len c < qn (i - j) * pmt_wid c)%Q.

(** the row written for the trigger at PMT sample [i] *)
Definition row_for (c : bcfg) (pmt_db sipm_db : list nat) (e : simevent) (p0 stopP stopS : Q) (i : nat) (row : out_row) : Prop :=
  let t := (p0 + qn i * pmt_wid c)%Q in
  nexus_evt row = sim_evt e /\ (time_stamp row == sim_time e + t)%Q /\
  exists tb, (tb <= t < tb + sipm_wid c)%Q /\
  buffers_of (sim_pmts e) pmt_db stopP (pmt_wid c)
             (tb - inject_Z (Qfloor (pre_trigger c / pmt_wid c)) * pmt_wid c) (Qfloor (buffer_len c / pmt_wid c)) (eng row) /\
  buffers_of (sim_sipms e) sipm_db stopS (sipm_wid c)
             (tb - inject_Z (Qfloor (pre_trigger c / sipm_wid c)) * sipm_wid c) (Qfloor (buffer_len c / sipm_wid c)) (trk row).

(** every hit of the event that is not more than [max_time] after the first one is read out *)
Definition all_read (c : bcfg) (e : simevent) (p0 stopP stopS : Q) : Prop :=
  exists t_first, (forall h, In h (sim_pmts e ++ sim_sipms e) -> t_first <= stime h)%Q /\
  (p0 <= t_first)%Q /\
  (forall h, In h (sim_pmts e ++ sim_sipms e) -> stime h <= t_first + max_time c -> stime h <= stopP /\ stime h <= stopS)%Q.
