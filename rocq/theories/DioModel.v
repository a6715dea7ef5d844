(** Model of what diomira does with the simulated light of one event: invisible_cities/cities/diomira.py 66-175, the writers of
    invisible_cities/io/rwf_io.py and invisible_cities/detsim/sensor_functions.py 34-88 *)
From Verif Require Import Base Arrays PeaksModel WfmModel NoiseModel CalibModel BuffersModel FeeModel DetsimModel FiltersModel IreneModel HypaModel TrigModel.
Local Open Scope nat_scope.

(** a row of DataPMT, with the column Sigma *)
Record dio_row := { dp_row : daq_row; dp_sigma : Q }.
(** for components.py 909-914 *)
Definition dp_gain (d : dio_row) : Q := Qabs (pm_gain (dq_row (dp_row d))).
(** components.py 909-914 and diomira.py 165-169: compute_pe_resolution *)
Definition pmt_resolution (d : dio_row) : Q := if Qeqb (dp_gain d) 0 then 0%Q else (dp_sigma d / dp_gain d)%Q.

(** what is drawn for a PMT: the noise of the input of its electronics, of the digitization and of low frequency *)
Record pmt_noise := { n_in : list Q; n_daq : list Q; n_low : list Q }.

(** rwf_io.py 52-66: the array is given the shape (1, n_sensors, waveform_length), which needs the same number of values *)
Definition fits_table {A} (n len : nat) (m : list (list A)) : bool := sumN (map (@length A) m) =? n * len.
(** the append of an array of floats to an array of int16: PyTables converts it with numpy.array(_, dtype), that drops the fraction.
    The conversion of numbers out of the range of int16 is not modelled *)
Definition store_float (x : Q) : result Z :=
  let z := Qtrunc x in if ((z <? -32768) || (32767 <? z))%Z then Err NotModelled else Ok z.

Section Diomira.
  Variable butter : Q -> Q * Q * Q.
  Variable sqrt : Q -> Q.
  Variable e : electronics.
  Variables draw_pmt draw_sipm : nat -> nat -> Q -> Q.
  Variable noise : nat -> pmt_noise.

  (** diomira.py 165-176 and sensor_functions.py 53-77: the response of the PMTs, and np.round(_).astype(np.int16) *)
  Definition simulate_one (db : list dio_row) (iw : nat * list Q) : result (list Q * list Q) :=
    match nth_error db (fst iw) with
    | None => Err IndexError
    | Some d => simulate_pmt e (draw_pmt (fst iw)) (pmt_resolution d) (fst iw) (dp_gain d) (snd iw) (n_in (noise (fst iw))) (n_daq (noise (fst iw))) (n_low (noise (fst iw)))
    end.
  (** for diomira.py 137-156 *)
  Definition simulate_pmts (db : list dio_row) (pmtrd : list (list Q)) : result (list (list Z) * list (list Z)) :=
    rbind (rmap (simulate_one db) (combine (seq 0 (length pmtrd)) pmtrd)) (fun l =>
    rbind (rmap (rmap discretize) (map fst l)) (fun rwf =>
    rbind (rmap (rmap discretize) (map snd l)) (fun blr => Ok (rwf, blr)))).

  (** diomira.py 137-156: an event, up to what is appended to the tables of waveforms, if it passes the trigger. [npmt], [ns], [nsipm], [nss]
      are the shapes of the arrays of the first input file (sensor_data, components.py 754-761); t_sample is 25 *)
  Definition diomira_event (db : list dio_row) (sipms : list sim_row) (noise_cut : Q) (padding : nat) (t : option (bool * trig_conf)) (npmt ns nsipm nss : nat)
             (pmtrd sipmrd sipm_noise : list (list Q)) : result (option (list (list Z) * list (list Z) * list (list Z))) :=
    rbind (simulate_pmts db pmtrd) (fun '(rwf, blr) =>
    rbind (trigger_decision butter sqrt (map dp_row db) t rwf) (fun pass =>
    if negb pass then Ok None else
    rbind (simulate_sipms draw_sipm sipms noise_cut padding sipm_noise sipmrd) (fun sipm =>
    if negb (fits_table npmt (ns / 25) rwf) then Err ValueError else
    if negb (fits_table npmt (ns / 25) blr) then Err ValueError else
    if negb (fits_table nsipm nss sipm) then Err ValueError else
    rbind (rmap (rmap store_float) sipm) (fun sipm => Ok (Some (rwf, blr, sipm)))))).
End Diomira.

(** diomira.py 117-163: the tables and the counts, when the events in range have gone through one after the other. The table of the trigger
    has a row for every event, those of waveforms and event information one for each that passes *)
Record dio_out := { do_filter : list (Z * bool); do_waveforms : list (Z * (list (list Z) * list (list Z) * list (list Z))); do_in : nat; do_passed : nat }.
(** with diomira.py 117-163 *)
Fixpoint diomira_run {E} (event : E -> result (option (list (list Z) * list (list Z) * list (list Z)))) (events : list (Z * E)) (out : dio_out) : result dio_out :=
  match events with
  | [] => Ok out
  | (n, ev) :: events =>
    rbind (event ev) (fun r =>
    diomira_run event events
      match r with
      | None => {| do_filter := do_filter out ++ [(n, false)]; do_waveforms := do_waveforms out; do_in := S (do_in out); do_passed := do_passed out |}
      | Some w => {| do_filter := do_filter out ++ [(n, true)]; do_waveforms := do_waveforms out ++ [(n, w)]; do_in := S (do_in out); do_passed := S (do_passed out) |}
      end)
  end.
