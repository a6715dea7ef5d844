(** Model of what irene does with the waveforms of one event: invisible_cities/cities/irene.py and the
    functions of invisible_cities/cities/components.py it is made of *)
From Verif Require Import Base Arrays PeaksModel WfmModel CalibModel.
Local Open Scope nat_scope.

(** The rows of DataPMT and DataSiPM for the run (database/load_db.py 26-92), with the columns that are used.
    A row of SiPMs has no SensorID because the PMaps label SiPMs with the position of their row. *)
Record pmt_row := { pm_id : nat; pm_active : bool; pm_clean : Q; pm_blr : Q; pm_gain : Q }.
(** for components.py 1814-1822: sensor_masker *)
Record sipm_row := { sm_active : bool; sm_gain : Q; sm_pos : Q * Q }.

(** l[mask] with an array of booleans *)
Definition mask_rows {A} (mask : list bool) (l : list A) : result (list A) :=
  if length mask =? length l then Ok (select mask l) else Err IndexError.

Section Irene.
  (** SGN.butter(1, coeff_clean, 'high') and np.sqrt in sierpe/blr.pyx *)
  Variable butter : Q -> Q * Q * Q.
  Variable sqrt : Q -> Q.

  (** components.py 1814-1822: sensor_masker *)
  Definition sensor_masker (pmts : list pmt_row) (sipms : list sipm_row) (rwf_pmt rwf_sipm : list (list Z))
    : result (list (list Z) * list (list Z)) :=
    rbind (mask_rows (map pm_active pmts) rwf_pmt) (fun p =>
    rbind (mask_rows (map sm_active sipms) rwf_sipm) (fun s => Ok (p, s))).

  (** components.py 431-444: deconv_pmt, for one PMT: the mean of those of the first [n_baseline] samples that are not 0 (calib_sensors_functions.py
      38-59: means, of a masked array; 0 when all of them are 0) minus the waveform, given to blr.deconvolve_signal with the default threshold of 5 (sierpe/blr.pyx 8) *)
  Definition deconvolve_one (n_baseline : nat) (d : pmt_row) (w : list Z) : result (list Q) :=
    let ped := mean0 (firstn n_baseline w) in
    let '(b0, b1, a1) := butter (pm_clean d) in
    deconvolve_signal b0 b1 a1 sqrt (pm_blr d) 5 (map (fun x => ped - zq x)%Q w).
  (** The mean of no sample is nan, and np.array(()) without PMTs has one dimension: not modelled. *)
  Definition deconv_pmt (pmts : list pmt_row) (n_baseline : nat) (rwfs : list (list Z)) : result (list (list Q)) :=
    let act := filter pm_active pmts in
    if negb (length rwfs =? length act) then Err AssertionError else
    if (n_baseline =? 0) || (length act =? 0) then Err NotModelled else
    rmap (fun dw => deconvolve_one n_baseline (fst dw) (snd dw)) (combine act rwfs).

  (** components.py 795-805 *)
  Definition calibrate_active_pmts (pmts : list pmt_row) (n_maw : nat) (thr_maw : Q) (ns : nat) (cwfs : list (list Q)) :=
    calibrate_pmts ns cwfs (map (fun d => Qabs (pm_gain d)) (filter pm_active pmts)) n_maw thr_maw.

  (** components.py 808-818 *)
  Definition calibrate_active_sipms (sipms : list sipm_row) (rwfs : list (list Z)) : result (list (list Q)) :=
    calibrate_sipms BlsMode rwfs (map (fun d => Qabs (sm_gain d)) (filter sm_active sipms)).

  (** components.py 902-906: zero_suppress_wfs *)
  Definition zero_suppress_wfs (thr_s1 thr_s2 : Q) (cwf_sum cwf_sum_maw : list Q) : list nat * list nat :=
    (indices_above_threshold cwf_sum_maw thr_s1, indices_above_threshold cwf_sum thr_s2).

  (** components.py 820-885: select_cutting_algorithm and the three algorithms. The thresholds of each SiPM are those of
      NoiseSampler.compute_thresholds (core/random_sampling.py 170-189), one for each row of the database. *)
  Inductive sipm_thr := CommonThr (t : Q) | IndividualThr (ts : list Q).
  (** for components.py 765-792 *)
  Inductive cutting := CutThreshold (thr : sipm_thr) (thr_s2 : Q) | CutPyrrha (nsigma proximity padding : Q) | NoCut.
  (** wfm_functions.py 295-349: spatial_selection_method, called with the positions of all the SiPMs of the database. When the
      waveforms are not as many as the positions the first SiPM selected makes an operation between arrays of different
      lengths; numpy repeats an array of length 1: not modelled. *)
  Definition pyrrha_selection (pos : list (Q * Q)) (nsigma proximity padding : Q) (m : mat) : result (list nat * mat) :=
    if length (rows m) =? length pos then
      rbind (spatial_selection_method pos (MedianStd nsigma) proximity padding (rows m)) (fun '(i, w) => Ok (i, {| cols := cols m; rows := w |}))
    else if (length (rows m) =? 1) || (length pos =? 1) then Err NotModelled
    else match np_where (fun b => b) (median_std_method (rows m) nsigma) with
         | [] => Ok ([], {| cols := cols m; rows := [] |})
         | _ :: _ => Err ValueError
         end.
  (** for components.py 765-792 *)
  Definition sipm_selection (sipms : list sipm_row) (c : cutting) (m : mat) : result (list nat * mat) :=
    match c with
    | CutThreshold (CommonThr t) thr_s2 => charge_threshold_method m (map (fun _ => t) (rows m)) thr_s2
    | CutThreshold (IndividualThr ts) thr_s2 => charge_threshold_method m ts thr_s2
    | CutPyrrha nsigma proximity padding => pyrrha_selection (map sm_pos sipms) nsigma proximity padding m
    | NoCut => Ok (seq 0 (length (rows m)), m)
    end.

  (** peak_functions.py 91-145: build_peak and find_peaks for an S2, with a selection of SiPMs that can fail: build_peak
      of PeaksModel with the selection [sel] *)
  Definition build_s2 (times widths : list Q) (ccwf : mat) (pmt_ids sipm_ids : list nat) (rebin_stride : Z) (sipm_wfs : mat)
             (pmt_wid sipm_wid : Q) (sel : mat -> result (list nat * mat)) (indices : list nat) : result peak :=
    let ratio := Z.to_nat (Qfloor (sipm_wid / pmt_wid)) in
    rbind (pick_slice_and_rebin indices times widths ccwf rebin_stride true ratio) (fun '(pk_times, pk_widths, pmt_wfs) =>
    rbind (mk_responses pmt_ids pmt_wfs) (fun pmt_r =>
    rbind (pick_slice_and_rebin (map (fun i => i / ratio) indices) (map (fun t => floor_div t ratio) times)
                                (map (fun w => w * qn ratio)%Q widths) sipm_wfs (rebin_stride / Z.of_nat ratio)%Z false 40) (fun '(_, _, reb) =>
    rbind (sel reb) (fun '(idx, wfs) =>
    rbind (fancy sipm_ids idx) (fun ids =>
    rbind (mk_responses ids wfs) (fun sipm_r =>
    mk_peak pk_times pk_widths pmt_r sipm_r)))))).
  (** for components.py 765-792 *)
  Definition find_s2s (ccwfs : mat) (index : list nat) (time length : minmax) (stride rebin_stride : Z)
             (pmt_ids sipm_ids : list nat) (pmt_wid sipm_wid : Q) (sipms : mat) (sel : mat -> result (list nat * mat)) : result (list peak) :=
    rbind (select_peaks (split_in_peaks index stride) time length pmt_wid) (fun splits =>
    rmap (build_s2 (map (fun i => qn i * pmt_wid)%Q (seq 0 (cols ccwfs))) (repeat pmt_wid (cols ccwfs)) ccwfs pmt_ids sipm_ids rebin_stride
                   sipms pmt_wid sipm_wid sel) splits).

  (** the arguments of irene (irene.py 55-80) that enter the PMap *)
  Record pk_params := { k_time : minmax; k_length : minmax; k_stride : Z; k_rebin : Z }.
  (** for components.py 765-792 *)
  Record params := { n_baseline : nat; n_maw : nat; thr_maw : Q; thr_csum_s1 : Q; thr_csum_s2 : Q;
                     s1_params : pk_params; s2_params : pk_params; pmt_wid : Q; sipm_wid : Q; cut : cutting }.

  (** components.py 765-792 and peak_functions.py 148-159: build_pmap, get_pmap *)
  Definition build_pmap (pmts : list pmt_row) (sipms : list sipm_row) (p : params) (ccwf : mat) (i1 i2 : list nat) (sipm : mat)
    : result (list peak * list peak) :=
    let pmt_ids := map pm_id (filter pm_active pmts) in
    let sipm_ids := np_where sm_active sipms in
    let s1 := s1_params p in let s2 := s2_params p in
    rbind (find_peaks ccwf i1 (k_time s1) (k_length s1) (k_stride s1) (k_rebin s1) pmt_ids [] (pmt_wid p) (sipm_wid p) None (fun m => ([], m))) (fun s1s =>
    rbind (find_s2s ccwf i2 (k_time s2) (k_length s2) (k_stride s2) (k_rebin s2) pmt_ids sipm_ids (pmt_wid p) (sipm_wid p) sipm
                    (sipm_selection sipms (cut p))) (fun s2s => Ok (s1s, s2s))).

  (** components.py 481-486: check_nonempty_indices, check_empty_pmap *)
  Definition nonempty_indices (i1 i2 : list nat) : bool := negb (length i1 =? 0) && negb (length i2 =? 0).
  (** for components.py 1319-1321 *)
  Definition nonempty_pmap (pm : list peak * list peak) : bool := negb (length (fst pm) =? 0) || negb (length (snd pm) =? 0).

  (** irene.py 96-127, 142-160 and components.py 1300-1346: the waveforms of one event, with [ns] PMT samples and
      [nss] SiPM samples, up to the PMap that build_pmap gives, if the event has samples over both thresholds *)
  Definition irene_step (pmts : list pmt_row) (sipms : list sipm_row) (p : params) (ns nss : nat) (rwf_pmt rwf_sipm : list (list Z))
    : result (option (list peak * list peak)) :=
    rbind (sensor_masker pmts sipms rwf_pmt rwf_sipm) (fun '(pmt, sipm) =>
    rbind (deconv_pmt pmts (n_baseline p) pmt) (fun cwf =>
    rbind (calibrate_active_pmts pmts (n_maw p) (thr_maw p) ns cwf) (fun '(ccwfs, _, cwf_sum, cwf_sum_maw) =>
    let '(i1, i2) := zero_suppress_wfs (thr_csum_s1 p) (thr_csum_s2 p) cwf_sum cwf_sum_maw in
    if negb (nonempty_indices i1 i2) then Ok None else
    rbind (calibrate_active_sipms sipms sipm) (fun cs =>
    rbind (build_pmap pmts sipms p {| cols := ns; rows := ccwfs |} i1 i2 {| cols := nss; rows := cs |}) (fun pm => Ok (Some pm)))))).
  (** components.py 1319-1321: the PMap that is written, if any *)
  Definition irene_event (pmts : list pmt_row) (sipms : list sipm_row) (p : params) (ns nss : nat) (rwf_pmt rwf_sipm : list (list Z))
    : result (option (list peak * list peak)) :=
    rbind (irene_step pmts sipms p ns nss rwf_pmt rwf_sipm) (fun o =>
    Ok (match o with Some pm => if nonempty_pmap pm then Some pm else None | None => None end)).
End Irene.
