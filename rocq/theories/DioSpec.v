(** Vocabulary for C102 *)
From Verif Require Import Base PeaksModel NoiseModel CalibModel FeeModel FeeSpec WfmSpec IreneModel IreneSpec HypaModel HypaSpec TrigModel DioModel.
Local Open Scope nat_scope.

(** the number without its fraction *)
Definition whole_part (x : Q) (z : Z) : Prop := ((0 <= x)%Q -> (inject_Z z <= x < inject_Z z + 1)%Q) /\ ((x < 0)%Q -> (inject_Z z - 1 < x <= inject_Z z)%Q).
Definition sixteen_bits (x : Q) : Prop := (-32768 <= x <= 32767)%Q.
Definition relative_sigma (sigma gain : Q) : Q := if Qeqb gain 0 then 0%Q else (sigma / gain)%Q.
(** the two waveforms of the PMT number [i] of the database, from its simulated light *)
Definition pmt_counts (e : electronics) (draw : nat -> Q -> Q) (i : nat) (d : dio_row) (n : pmt_noise) (light : list Q) (rwf blr : list Z) : Prop :=
  let gain := Qabs (pm_gain (dq_row (dp_row d))) in
  exists fl r b, fluctuated draw (relative_sigma (dp_sigma d) gain) light fl /\ pmt_response e i gain fl (n_in n) (n_daq n) (n_low n) = Ok (r, b) /\
    Forall2 nearest r rwf /\ Forall2 nearest b blr.
(** the waveform of a SiPM that is stored, from its simulated light and the noise *)
Definition sipm_counts (draw : nat -> Q -> Q) (d : sim_row) (noise_cut : Q) (padding : nat) (noise light : list Q) (z : list Z) : Prop :=
  let gain := sm_gain (ss_row d) in
  exists fl adc, fluctuated draw (relative_sigma (ss_sigma d) gain) light fl /\ length adc = length light /\ length z = length light /\
  (forall j, j < length light -> (nth j adc 0 == nth j fl 0 * gain + nth j noise 0)%Q) /\
  forall j, j < length light ->
    (WfmSpec.kept adc (noise_cut * gain + ss_base d) padding j -> whole_part (nth j adc 0%Q) (nth j z 0%Z)) /\
    (~ WfmSpec.kept adc (noise_cut * gain + ss_base d) padding j -> nth j z 0%Z = 0%Z).
(** one number for each sample of the electronics *)
Definition noise_fits (ns : nat) (n : pmt_noise) : Prop := length (n_in n) = (ns + 24) / 25 /\ length (n_daq n) = (ns + 24) / 25 /\ length (n_low n) = ns / 25.
(** arrays of the shapes of the database and of the first file *)
Record good_mc (e : electronics) (noise : nat -> pmt_noise) (db : list dio_row) (sipms : list sim_row) (ns nss : nat) (pmtrd sipmrd sipm_noise : list (list Q)) : Prop := {
  gm_scale : scale e = 25;
  gm_spe : 2 <= length (spe e) <= ns;
  gm_pmts : length pmtrd = length db;
  gm_len : Forall (fun w => length w = ns) pmtrd;
  gm_noise : forall i, i < length db -> noise_fits ns (noise i);
  gm_sipms : length sipmrd = length sipms;
  gm_nss : Forall (fun w => length w = nss) sipmrd;
  gm_snoise : length sipm_noise = length sipms;
  gm_snlen : Forall (fun w => length w = nss) sipm_noise }.
(** the counts of the PMTs are numbers of 16 bits *)
Definition pmt_counts_fit (e : electronics) (draw : nat -> nat -> Q -> Q) (noise : nat -> pmt_noise) (db : list dio_row) (pmtrd : list (list Q)) : Prop :=
  forall i d w r b, nth_error db i = Some d -> nth_error pmtrd i = Some w ->
    simulate_pmt e (draw i) (pmt_resolution d) i (dp_gain d) w (n_in (noise i)) (n_daq (noise i)) (n_low (noise i)) = Ok (r, b) -> Forall sixteen_bits r /\ Forall sixteen_bits b.

(** the events that pass, with their numbers *)
Definition passing {A} (evs : list (Z * option A)) : list (Z * A) := flat_map (fun x => match snd x with Some a => [(fst x, a)] | None => [] end) evs.
