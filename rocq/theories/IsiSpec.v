(** Vocabulary for C113 *)
From Verif Require Import Base ConfigModel PeaksModel CalibModel IreneModel IreneSpec NoiseModel FeeModel HypaModel TrigModel DioModel DioSpec FrunModel IsiModel.
Notation len := List.length.
Local Open Scope nat_scope.


(** the deconvolved waveform of a PMT, from its raw waveform and its own constants: the mean of the first samples that are not 0, minus the waveform, is deconvolved *)
Definition restored (butter : Q -> Q * Q * Q) (sqrt : Q -> Q) (n_baseline : nat) (d : pmt_row) (w : list Z) (c : list Q) : Prop :=
  let '(b0, b1, a1) := butter (pm_clean d) in
  let first := filter (fun x => negb (x =? 0)%Z) (firstn n_baseline w) in
  let base := (sumF inject_Z first / inject_Z (Z.of_nat (len first)))%Q in
  exists inv, Forall2 (fun z y => y == base - inject_Z z)%Q w inv /\ deconvolve_signal b0 b1 a1 sqrt (pm_blr d) 5 inv = Ok c.

(** what isidora stores of an event: for the PMTs in use, each with a raw waveform, the deconvolved waveforms without fractions *)
Definition right_cwf (butter : Q -> Q * Q * Q) (sqrt : Q -> Q) (pmts : list pmt_row) (n_baseline : nat) (w : rwf_event) (z : list (list Z)) : Prop :=
  Forall2 (fun dw k => exists c, restored butter sqrt n_baseline (fst dw) (snd dw) c /\ Forall2 whole_part c k) (combine (filter pm_active pmts) (w_pmt w)) z.

(** the waveforms of an event have the shapes of the tables, one for each PMT in use and enough samples, and what is stored fits in 16 bits *)
Record good_rwf (butter : Q -> Q * Q * Q) (sqrt : Q -> Q) (pmts : list pmt_row) (n_baseline : nat) (s : shapes) (w : rwf_event) : Prop := {
  gr_rows : len (w_pmt w) = n_pmt s; gr_samples : Forall (fun x => len x = pmt_wl s) (w_pmt w);
  gr_sipms : len (w_sipm w) = n_sipm s; gr_sipm : Forall (fun x => len x = sipm_wl s) (w_sipm w);
  gr_in_use : len (filter pm_active pmts) = n_pmt s; gr_some : 0 < n_pmt s; gr_long : 400 <= pmt_wl s; gr_base : 0 < n_baseline;
  gr_blr : forall d, In d pmts -> pm_active d = true -> ~ (pm_blr d == 0)%Q;
  gr_fits : forall dw c, In dw (combine (filter pm_active pmts) (w_pmt w)) -> deconvolve_one butter sqrt n_baseline (fst dw) (snd dw) = Ok c -> Forall sixteen_bits c }.
