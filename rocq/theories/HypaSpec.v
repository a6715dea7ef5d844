(** Vocabulary for C97: what a PMap of hypathia should hold *)
From Coq Require Import Qround.
From Verif Require Import Base PeaksModel PeaksSpec WfmSpec CalibModel CalibSpec IreneModel IreneSpec HypaModel.
Local Open Scope nat_scope.

(** [k] samples in one, the last one with those that are left *)
Definition grouped (k : nat) (w w' : list Q) : Prop :=
  k * length w' < length w + k /\ length w <= k * length w' /\
  forall j, j < length w' -> (nth j w' 0 == charge_in (k * j) (k * (j + 1)) w)%Q.
(** the charge of each sample fluctuates if it is positive, and is never negative afterwards *)
Definition fluctuated (draw : nat -> Q -> Q) (rms : Q) (w w' : list Q) : Prop :=
  length w' = length w /\
  forall j, j < length w -> let q := nth j w 0%Q in let q' := nth j w' 0%Q in
    if Qeqb rms 0 then (q' == q)%Q else
    if Qle_bool q 0 then (q' == 0)%Q else
    (q' == if Qle_bool (draw j q) 0 then 0 else draw j q)%Q.
(** the waveform of a PMT, from its simulated light *)
Definition pmt_light (draw : nat -> Q -> Q) (stride : Z) (rms : Q) (w cc : list Q) : Prop :=
  exists w', grouped (Z.to_nat (Z.max 1 stride)) w w' /\ fluctuated draw rms w' cc.

(** the whole number nearest to [x], even when there are two *)
Definition nearest (x : Q) (n : Z) : Prop := (Qabs (inject_Z n - x) <= 1 # 2)%Q /\ ((Qabs (inject_Z n - x) == 1 # 2)%Q -> Z.even n = true).
(** the digitised waveform of a SiPM, from its simulated light and the noise: without signal above threshold around it a sample is zero *)
Definition sipm_response (draw : nat -> Q -> Q) (d : sim_row) (noise_cut : Q) (padding : nat) (noise light : list Q) (z : list Z) : Prop :=
  exists fl adc, fluctuated draw (if Qeqb (sm_gain (ss_row d)) 0 then 0 else ss_sigma d / sm_gain (ss_row d))%Q light fl /\
  length adc = length light /\ length z = length light /\
  (forall j, j < length light -> (nth j adc 0 == nth j fl 0 * sm_gain (ss_row d) + nth j noise 0)%Q) /\
  forall j, j < length light ->
    (WfmSpec.kept adc (noise_cut * sm_gain (ss_row d) + ss_base d) padding j -> nearest (nth j adc 0%Q) (nth j z 0%Z)) /\
    (~ WfmSpec.kept adc (noise_cut * sm_gain (ss_row d) + ss_base d) padding j -> nth j z 0%Z = 0%Z).

(** the sum of the PMTs *)
Definition light_sum (ccs : list (list Q)) (k : nat) : Q := sumF (fun cc => nth k cc 0%Q) ccs.

(** the detector, the configuration and the event: rectangular arrays with one row per sensor of the database, a rebinning of S2 of a whole
    number of SiPM samples, and SiPM samples for the [ns] samples of the rebinned PMTs. The ADC counts of SiPMs fit in 16 bits. *)
Record good_light (pmts : list pmt_row) (sipms : list sim_row) (p : hparams) (ns nss : nat) (pmtrd : mat) (sipmrd noise : list (list Q)) (r m : nat) : Prop := {
  gl_pmts : length (rows pmtrd) = length pmts;
  gl_mat : is_mat pmtrd;
  gl_ns : Z.to_nat (Z.max 1 (h_rebin p)) * ns < cols pmtrd + Z.to_nat (Z.max 1 (h_rebin p)) /\ cols pmtrd <= Z.to_nat (Z.max 1 (h_rebin p)) * ns;
  gl_sipms : length sipmrd = length sipms;
  gl_nss : Forall (fun w => length w = nss) sipmrd;
  gl_noise : length noise = length sipms;
  gl_noises : Forall (fun w => length w = nss) noise;
  gl_wid : (0 < pmt_wid (h_pmap p))%Q;
  gl_thr : (0 <= thr_csum_s2 (h_pmap p))%Q;
  gl_r : 0 < r; gl_m : 0 < m;
  gl_ratio : Qfloor (sipm_wid (h_pmap p) / pmt_wid (h_pmap p)) = Z.of_nat r;
  gl_rebin : k_rebin (s2_params (h_pmap p)) = Z.of_nat (r * m);
  gl_long : ns <= r * nss }.
(** no ADC count of the simulated SiPMs leaves the range of 16 bits *)
Definition counts_fit (draw : nat -> nat -> Q -> Q) (sipms : list sim_row) (sipmrd noise : list (list Q)) : Prop :=
  forall s d w n fl j, nth_error sipms s = Some d -> nth_error sipmrd s = Some w -> nth_error noise s = Some n ->
    fluctuated (draw s) (if Qeqb (sm_gain (ss_row d)) 0 then 0 else ss_sigma d / sm_gain (ss_row d))%Q w fl -> j < length w ->
    (-32768 <= nth j fl 0 * sm_gain (ss_row d) + nth j n 0 <= 32767)%Q.
