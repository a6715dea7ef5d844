(** The simulated response of the PMTs: /repo/invisible_cities/sierpe/fee.py, sierpe/low_frequency_noise.py and
    detsim/sensor_functions.py 34-77.  Exact arithmetic.  The coefficients of the filters (scipy.signal.butter and firwin,
    fee.py 271-341 and 395-411) are parameters; what the filters do with a signal is modelled. *)
From Coq Require Import QArith ZArith List Lia.
From Verif Require Import Base Arrays DbModel NoiseModel.
Import ListNotations.
Local Open Scope Q_scope.

(** np.linspace(start, stop, n) *)
Definition line (start stop : Q) (n : nat) : list Q :=
  match n with
  | O => []
  | S O => [start]
  | S m => map (fun i => start + qnat i * ((stop - start) / qnat m)) (seq 0 n)
  end.
(** fee.py 52-74 SPE: the current of a photoelectron, with [slope] samples up and down and [flat] samples at the top *)
Definition spe_shape (A : Q) (slope flat : nat) : list Q := line 0 A slope ++ repeat A flat ++ line A 0 slope.

(** scipy.signal.convolve(a, b), mode full: nothing when one of them is empty *)
Definition convolve (a b : list Q) : list Q :=
  match a, b with
  | [], _ | _, [] => []
  | _, _ => map (conv_at a b) (seq 0 (length a + length b - 1))
  end.
(** fee.py 89-106 spe_pulse *)
Definition spe_pulse (spe : list Q) (n nmax : nat) : result (list Q) :=
  if (n <? nmax)%nat then Ok (convolve (upd n 1 (repeat 0 nmax)) spe) else Err IndexError.
(** fee.py 109-129 spe_pulse_train *)
Definition spe_pulse_train (spe : list Q) (nmin nmax NMAX : nat) : list Q :=
  convolve (map (fun i => if (nmin <=? i)%nat && (i <=? nmax)%nat then 1 else 0) (seq 0 NMAX)) spe.
(** fee.py 132-139 spe_pulse_from_vector: cnt[:-len(spe)+1]; a pulse of one sample gives cnt[:0], an empty one cnt[:1] *)
Definition without_end (cnt : list Q) (n : nat) : list Q :=
  match n with O => firstn 1 cnt | S O => [] | S m => firstn (length cnt - m) cnt end.
(** fee.py 132-139: spe_pulse_from_vector *)
Definition spe_pulse_from_vector (spe cnt : list Q) (norm : Q) : list Q := convolve (without_end cnt (length spe)) (map (fun x => x * norm) spe).

(** scipy.signal.decimate(x, scale, ftype='fir', zero_phase=True) (fee.py 395-411): the filter [h], of odd length, centred at each [scale]-th sample, zeros outside; ceil(n / scale) samples *)
Definition fir_at (h x : list Q) (t : nat) : Q :=
  sumF (fun j => if (j <=? t + length h / 2)%nat then nth j h 0 * nth (t + length h / 2 - j) x 0 else 0) (seq 0 (length h)).
(** for fee.py 257-268 *)
Definition decimate (scale : nat) (h x : list Q) : list Q := map (fun k => fir_at h x (scale * k)) (seq 0 ((length x + scale - 1) / scale)).

(** scipy.signal.lfilter(b, a, x): the samples before are most recent first; a[0] y[t] = sum b[i] x[t-i] - sum a[i] y[t-i] *)
Definition dot (u v : list Q) : Q := sumQ (map2 Qmult u v).
(** for fee.py 257-268 *)
Fixpoint lfilter_from (b a : list Q) (xs ys x : list Q) : list Q :=
  match x with
  | [] => []
  | x0 :: x => let y0 := (dot b (x0 :: xs) - dot (tl a) ys) / hd 1 a in y0 :: lfilter_from b a (x0 :: xs) (y0 :: ys) x
  end.
(** for fee.py 257-268 *)
Definition lfilter (b a x : list Q) : list Q := lfilter_from b a [] [] x.

(** The electronics: gains and filters.  fee.py 271-284 and 287-329 give [(b, a)] of the filters. *)
Record electronics := { spe : list Q; scale : nat; fir : list Q; lpf : list Q * list Q; fee_filter : nat -> list Q * list Q; v_to_adc : Q; offset : Q; adc_ref : Q }.
(** sensor_functions.py 34-77, one PMT: [noise_in] is the noise at the input of the electronics (zeros when its size is 0, fee.py 356-361),
    [noise_daq] that of the digitization (fee.py 257-268), both of the length of the signal, [low] the low-frequency noise,
    of length int(f_sample * n / f_mc) (line 50); numpy refuses arrays of different lengths (a single sample, which it would repeat, is refused too) *)
Definition buffer_length (e : electronics) (n : nat) : nat := (n / scale e)%nat.
(** for fee.py 257-268 *)
Definition pmt_signal (e : electronics) (adc_to_pes : Q) (cnt : list Q) : list Q :=
  decimate (scale e) (fir e) (spe_pulse_from_vector (spe e) cnt (adc_to_pes / adc_ref e)).
(** with fee.py 257-268 *)
Definition pmt_response (e : electronics) (pmt : nat) (adc_to_pes : Q) (cnt noise_in noise_daq low : list Q) : result (list Q * list Q) :=
  let signal_d := pmt_signal e adc_to_pes cnt in
  let '(b, a) := fee_filter e pmt in
  let signal_fee := map (fun x => x * v_to_adc e) (lfilter b a (map2 Qplus signal_d noise_in)) in
  let signal_noise := map2 Qplus signal_fee noise_daq in
  if (length signal_noise =? length low)%nat then
    let signal_daq := map2 Qminus signal_noise low in
    let signal_blr := map (fun x => x * v_to_adc e) (lfilter (fst (lpf e)) (snd (lpf e)) signal_d) in
    Ok (map (fun x => offset e - x) signal_daq, signal_blr)
  else Err ValueError.
(** with the fluctuation of charge *)
Definition simulate_pmt (e : electronics) (draw : nat -> Q -> Q) (rms : Q) (pmt : nat) (adc_to_pes : Q) (pmtrd noise_in noise_daq low : list Q) : result (list Q * list Q) :=
  pmt_response e pmt adc_to_pes (charge_fluctuation draw rms pmtrd) noise_in noise_daq low.

(** ---- low_frequency_noise.py ---- *)
Section LowFrequency.
Variable cos : Q -> Q.
(** low_frequency_noise.py 14-25 frequency_contribution *)
Definition frequency_contribution (time_bins : list Q) (rfrequency magnitude phase : Q) : list Q := map (fun t => 2 * magnitude * cos (rfrequency * t + phase)) time_bins.
(** low_frequency_noise.py 28-51: limits of the frequencies drawn *)
Definition frequency_limits (freqs : list Q) : result (list (Q * Q)) :=
  match freqs with f0 :: f1 :: _ => Ok (map (fun f => (f - (f1 - f0) / 2, f + (f1 - f0) / 2)) freqs) | _ => Err IndexError end.
(** np.transpose of [n] columns *)
Definition transpose (n : nat) (rows : list (list Q)) : list (list Q) := map (fun c => map (fun r => nth c r 0) rows) (seq 0 n).
(** for low_frequency_noise.py 61-90 *)
Definition sum_rows (n : nat) (rows : list (list Q)) : list Q := map (fun t => sumF (fun r => nth t r 0) rows) (seq 0 n).
(** low_frequency_noise.py 61-90: [rot_frequencies], one per row of FE_data, and [magnitudes], one per row and box, are the values drawn; [phases] are drawn flat *)
Definition box_noise (buffer_length : nat) (bin_width : Q) (n_febox : nat) (rot_frequencies : list Q) (magnitudes : list (list Q)) (phases : list Q) : result (list (list Q)) :=
  let time_bins := map (fun i => bin_width * qnat i) (seq 0 buffer_length) in
  let freqs := concat (repeat rot_frequencies n_febox) in
  let mags := concat (transpose n_febox magnitudes) in
  let noise := map2 (fun fm p => frequency_contribution time_bins (fst fm) (snd fm) p) (combine freqs mags) phases in
  rbind (reshape n_febox (length rot_frequencies) noise) (fun boxes => Ok (map (sum_rows buffer_length) boxes)).
(** low_frequency_noise.py 92-96: the mapping lists pairs of sensor and box (boxes that are not negative) *)
Definition get_low_frequency_noise (noise : list (list Q)) (mapping : list (Z * nat)) (sens_id : list Z) (pmt : nat) : result (list Q) :=
  match nth_error sens_id pmt with
  | None => Err IndexError
  | Some s => match filter (fun m => Z.eqb (fst m) s) mapping with
              | [] => Err IndexError
              | m :: _ => match nth_error noise (snd m) with Some n => Ok n | None => Err IndexError end
              end
  end.
End LowFrequency.
