(** Model of what hypathia does with the simulated light of one event: invisible_cities/cities/hypathia.py and the functions of
    invisible_cities/cities/components.py and invisible_cities/detsim/sensor_functions.py it is made of *)
From Verif Require Import Base Arrays PeaksModel WfmModel NoiseModel CalibModel DetsimModel IreneModel.
Local Open Scope nat_scope.

(** What the database says of a SiPM (DataSiPM, SiPMNoise): the row used by irene, the width of its single photoelectron and its baseline *)
Record sim_row := { ss_row : sipm_row; ss_sigma : Q; ss_base : Q }.
(** The arguments of hypathia (hypathia.py 59-82) that enter the PMap. Those of the peaks are in [h_pmap]; its first three fields are not used. *)
Record hparams := { h_rebin : Z; h_rms : Q; h_noise_cut : Q; h_padding : nat; h_pmap : params }.

(** hypathia.py 176-186: rebin_pmts *)
Definition rebin_pmts (stride : Z) (rwf : mat) : result mat :=
  if (1 <? stride)%Z then
    let times := repeat 0%Q (cols rwf) in
    rbind (rebin_times_and_waveforms times times rwf stride) (fun '(_, _, w) => Ok w)
  else Ok rwf.

(** components.py 909-914: compute_pe_resolution, of one sensor *)
Definition pe_resolution (d : sim_row) : Q := if Qeqb (sm_gain (ss_row d)) 0 then 0%Q else (ss_sigma d / sm_gain (ss_row d))%Q.
(** components.py 922: the threshold of the zero suppression of one sensor *)
Definition suppression_thr (noise_cut : Q) (d : sim_row) : Q := (noise_cut * sm_gain (ss_row d) + ss_base d)%Q.

(** hypathia.py 117: np.round(rwf).astype(np.int16); the conversion of numbers out of the range of int16 is not modelled *)
Definition discretize (x : Q) : result Z :=
  let z := np_round x in if ((z <? -32768) || (32767 <? z))%Z then Err NotModelled else Ok z.

Section Hypathia.
  (** np.random.normal for a sensor, a sample and a mean, of the PMTs and of the SiPMs *)
  Variables draw_pmt draw_sipm : nat -> nat -> Q -> Q.

  (** hypathia.py 97-99: sf.charge_fluctuation of all the PMTs *)
  Definition fluctuate_pmts (rms : Q) (m : mat) : mat :=
    {| cols := cols m; rows := mapi (fun s w => charge_fluctuation (draw_pmt s) rms w) (rows m) |}.

  (** components.py 926-928 and sensor_functions.py 80-88: simulate_sipm_response. [noise] is what the sampler of noise draws, an array of
      one row per SiPM of the database (random_sampling.py 162-168); arrays of other shapes cannot be operated together. *)
  Definition simulate_sipms (sipms : list sim_row) (noise_cut : Q) (padding : nat) (noise sipmrd : list (list Q)) : result (list (list Q)) :=
    if negb (length sipmrd =? length sipms) || negb (length noise =? length sipms) then Err ValueError else
    let wfs := mapi (fun s '(d, (n, w)) => simulate_sipm (draw_sipm s) (pe_resolution d) (sm_gain (ss_row d)) n w) (combine sipms (combine noise sipmrd)) in
    Ok (noise_suppression wfs (map (suppression_thr noise_cut) sipms) (map (fun _ => padding) sipms)).

  (** hypathia.py 87-169 and components.py 1300-1341: the light of one event up to its PMap; None: there are not samples over both thresholds
      (check_nonempty_indices). The PMT waveforms are masked (hypathia.py 87-89) after the rebinned ones are made, and what is made from those
      (ccwfs) is not masked. *)
  Definition hypathia_step (pmts : list pmt_row) (sipms : list sim_row) (p : hparams) (nss : nat) (pmtrd : mat) (sipmrd noise : list (list Q))
    : result (option (list peak * list peak)) :=
    rbind (rebin_pmts (h_rebin p) pmtrd) (fun rwf =>
    let ccwfs := fluctuate_pmts (h_rms p) rwf in
    rbind (simulate_sipms sipms (h_noise_cut p) (h_padding p) noise sipmrd) (fun wfs =>
    rbind (rmap (rmap discretize) wfs) (fun sipm =>
    rbind (mask_rows (map pm_active pmts) (rows pmtrd)) (fun _ =>
    rbind (mask_rows (map (fun d => sm_active (ss_row d)) sipms) sipm) (fun sipm =>
    (* pmts_sum, hypathia.py 102-108, 189-190 *)
    let sum := sum_over_sensors ccwfs in
    let '(i1, i2) := zero_suppress_wfs (thr_csum_s1 (h_pmap p)) (thr_csum_s2 (h_pmap p)) sum sum in
    if negb (nonempty_indices i1 i2) then Ok None else
    rbind (calibrate_active_sipms (map ss_row sipms) sipm) (fun cs =>
    rbind (build_pmap pmts (map ss_row sipms) (h_pmap p) ccwfs i1 i2 {| cols := nss; rows := cs |}) (fun pm => Ok (Some pm)))))))).
  (** components.py 1342-1346: up to the PMap that is written, if any *)
  Definition hypathia_event (pmts : list pmt_row) (sipms : list sim_row) (p : hparams) (nss : nat) (pmtrd : mat) (sipmrd noise : list (list Q))
    : result (option (list peak * list peak)) :=
    rbind (hypathia_step pmts sipms p nss pmtrd sipmrd noise) (fun o =>
    Ok match o with Some pm => if nonempty_pmap pm then Some pm else None | None => None end).
End Hypathia.
