(** The noise of several samples and the signal to noise of SiPMs:
    /repo/invisible_cities/core/random_sampling.py, and the simulated response of the SiPMs:
    /repo/invisible_cities/detsim/sensor_functions.py.  The rows of [probs] are those of the sampler after masking and
    normalizing ([DbModel.sampler_probs], lines 136-147).  Sums are exact, [fftconvolve] is the convolution it computes. *)
From Coq Require Import QArith ZArith List Lia Qround.
From Verif Require Import Base Arrays DbModel.
Import ListNotations.
Local Open Scope Q_scope.

(** np.round to 5 decimals: half to even *)
Definition round_even (y : Q) : Z :=
  let f := Qfloor y in let d := y - inject_Z f in
  if Qltb d (1#2) then f else if Qltb (1#2) d then (f + 1)%Z else if Z.even f then f else (f + 1)%Z.
(** for random_sampling.py 57-67 *)
Definition round5 (x : Q) : Q := inject_Z (round_even (x * 100000)) / 100000.

(** for random_sampling.py 50-72 *)
Definition qnat (n : nat) : Q := inject_Z (Z.of_nat n).
(** np.linspace(start, stop, n, endpoint=False) *)
Definition ramp (start stop : Q) (n : nat) : list Q := map (fun i => start + qnat i * ((stop - start) / qnat n)) (seq 0 n).

(** random_sampling.py 57-67: width of the bins, number of bins added on each side and the bins with them.
    Bins that do not increase are not modelled; less than two bins raise IndexError. *)
Definition pad_width (bins : list Q) : result Q :=
  match bins with
  | b0 :: b1 :: _ => let w := round5 (b1 - b0) in if Qltb 0 w then Ok w else Err NotModelled
  | _ => Err IndexError
  end.
(** for random_sampling.py 50-72 *)
Definition pad_left (bins : list Q) (w : Q) : nat := Z.to_nat (Qfloor (Qabs.Qabs (-(100) - hd 0 bins) / w)).
(** for random_sampling.py 50-72 *)
Definition pad_right (bins : list Q) (w : Q) : nat := Z.to_nat (Qfloor (Qabs.Qabs (100 - last bins 0) / w)).
(** for random_sampling.py 50-72 *)
Definition padded_bins (bins : list Q) (w : Q) : list Q :=
  let p0 := pad_left bins w in let p1 := pad_right bins w in
  let bin_min := round5 (hd 0 bins - qnat p0 * w) in let bin_max := round5 (last bins 0 + qnat p1 * w) in
  ramp bin_min (hd 0 bins) p0 ++ bins ++ rev (ramp bin_max (last bins 0) p1).
(** random_sampling.py 50-72 pad_pdfs *)
Definition pad_pdfs (bins : list Q) (spectra : list (list Q)) : result (list Q * list (list Q)) :=
  rbind (pad_width bins) (fun w =>
  Ok (padded_bins bins w, map (fun p => repeat 0 (pad_left bins w) ++ p ++ repeat 0 (pad_right bins w)) spectra)).

(** fftconvolve(a, b, "same") for two rows of the same length: the entries (N-1)/2 .. (N-1)/2 + N - 1 of the convolution *)
Definition conv_at (a b : list Q) (k : nat) : Q :=
  sumF (fun i => if (i <=? k)%nat then nth i a 0 * nth (k - i) b 0 else 0) (seq 0 (length a)).
(** for random_sampling.py 255-281 *)
Definition convolve_same (a b : list Q) : list Q := map (fun k => conv_at a b (k + (length b - 1) / 2)) (seq 0 (length a)).
(** random_sampling.py 255-281 multi_sample_distributions; width 0 recurs for ever, which signal_to_noise excludes *)
Fixpoint multi_sample (padded : list (list Q)) (width : nat) : result (list (list Q)) :=
  match width with
  | O => Err NotModelled
  | S O => Ok padded
  | S m => rbind (multi_sample padded m) (fun rest => Ok (map2 convolve_same padded rest))
  end.
(** random_sampling.py 256-281: multi_sample_distributions *)
Definition multi_sample_distributions (bins : list Q) (probs : list (list Q)) (width : nat) : result (list (list Q)) :=
  rbind (pad_pdfs bins probs) (fun bp => multi_sample (snd bp) width).

(** np.average with weights: ZeroDivisionError when they sum to 0 *)
Definition average (x w : list Q) : result Q :=
  if Qeqb (sumQ w) 0 then Err ZeroDivisionError else Ok (sumQ (map2 Qmult x w) / sumQ w).
(** types/symbols.py DarkModel *)
Inductive dark_model := dark_mean | dark_threshold.
(** random_sampling.py 224-252 dark_expectation; [active] has one entry per row of [probs] *)
Definition dark_expectation (bins : list Q) (active : list bool) (probs : list (list Q)) (width : nat) (m : dark_model) : result (list ext) :=
  rbind (multi_sample_distributions bins probs width) (fun pdfs =>
  rbind (pad_pdfs bins probs) (fun bp =>
  match m with
  | dark_threshold =>
      rbind (mask active pdfs) (fun masked =>
      rbind (general_thresholds (fst bp) (map normalize masked) (99#100)) (fun dark =>
      Ok (map2 (fun (a : bool) d => if a then d else Fin 0) active dark)))
  | dark_mean =>
      rmap (fun ap => if fst ap : bool then rbind (average (fst bp) (snd ap)) (fun d => Ok (Fin d)) else Ok (Fin 0)) (combine active pdfs)
  end)).

Section Sqrt.
Variable sqrt : Q -> Q.
(** charge / sqrt(charge + dark) *)
Definition over_noise (q : Q) (d : ext) : ext :=
  match d with
  | Fin d => if Qltb (q + d) 0 then NaN else if Qltb 0 (q + d) then Fin (q / sqrt (q + d)) else if Qltb 0 q then Inf else if Qltb q 0 then NegInf else NaN
  | Inf => Fin 0
  | _ => NaN
  end.
(** random_sampling.py 192-221 signal_to_noise, for ids that are not negative *)
Definition signal_to_noise (bins : list Q) (active : list bool) (probs : list (list Q)) (ids : list nat) (charges : list Q) (width : Z) (m : dark_model) : result (list ext) :=
  if (width <? 1)%Z then Err ValueError else
  rbind (dark_expectation bins active probs (Z.to_nat width) m) (fun dark =>
  rbind (rmap (fun i => match nth_error dark i with Some d => Ok d | None => Err IndexError end) ids) (fun levels =>
  if (length charges =? length levels)%nat then Ok (map2 over_noise charges levels) else Err ValueError)).
End Sqrt.

(** random_sampling.py 20-27: the bins chosen ([draws]) from a row, zeros if the row has no noise *)
Definition sample_discrete (bins p : list Q) (draws : list nat) : list Q :=
  if forallb (fun x => Qeqb x 0) p then map (fun _ => 0) draws else map (fun i => nth i bins 0) draws.
(** random_sampling.py 162-168: one sensor of sample; [smears] are the deviations, zeros without smearing *)
Definition sample_row (bins : list Q) (active : bool) (p : list Q) (adc_to_pes baseline : Q) (draws : list nat) (smears : list Q) : list Q :=
  map2 (fun x u => (adc_to_pes * (x + u) + baseline) * (if active then 1 else 0)) (sample_discrete bins p draws) smears.

(** sensor_functions.py 16-31 charge_fluctuation: [draw q] is the normal around [q] *)
Definition charge_fluctuation (draw : nat -> Q -> Q) (single_pe_rms : Q) (signal : list Q) : list Q :=
  if Qeqb single_pe_rms 0 then signal else
  mapi (fun i q => let q' := if Qltb 0 q then draw i q else q in if Qltb q' 0 then 0 else q') signal.
(** sensor_functions.py 80-88: one sensor of simulate_sipm_response *)
Definition simulate_sipm (draw : nat -> Q -> Q) (rms adc_to_pes : Q) (noise signal : list Q) : list Q :=
  map2 (fun q s => q * adc_to_pes + s) (charge_fluctuation draw rms signal) noise.
