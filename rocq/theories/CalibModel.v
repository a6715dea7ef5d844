(** Model of invisible_cities/calib: calib_sensors_functions.py and the integrals of calib_functions.py *)
From Verif Require Import Base Arrays PeaksModel WfmModel.
Local Open Scope nat_scope.

(** for calib_sensors_functions.py 13-14: mask_sensors *)
Definition zq (z : Z) : Q := inject_Z z.

(** numpy broadcasting of a column with one value per sensor over the rows of an array. When one of the two has
    length 1 numpy repeats it: not modelled. *)
Definition per_row {A B C} (f : A -> B -> C) (rows : list A) (col : list B) : result (list C) :=
  if length rows =? length col then Ok (map2 f rows col)
  else if (length rows =? 1) || (length col =? 1) then Err NotModelled else Err ValueError.

(** calib_sensors_functions.py 13-14: mask_sensors; [active] is an array of 0 and 1 *)
Definition mask_sensors (wfs : list (list Q)) (active : list Z) : result (list (list Q)) :=
  per_row (fun wf a => map (fun x => x * zq a)%Q wf) wfs active.

(** calib_sensors_functions.py 38-56: the masked mean and median; 0 when all the samples are 0 *)
Definition nonzero (wf : list Z) : list Q := map zq (filter (fun x => negb (x =? 0)%Z) wf).
(** for calib_sensors_functions.py 60-90: subtract_baseline *)
Definition mean0 (wf : list Z) : Q := match nonzero wf with [] => 0%Q | l => meanQ l end.
(** for calib_sensors_functions.py 60-90: subtract_baseline *)
Definition median0 (wf : list Z) : Q := match nonzero wf with [] => 0%Q | l => median l end.

(** calib_sensors_functions.py 26-35: np.bincount(positive).argmax() *)
Definition occurs (x : Z) (l : list Z) : nat := length (filter (Z.eqb x) l).
(** for calib_sensors_functions.py 26-35: mode *)
Definition maxZ (l : list Z) : Z := fold_right Z.max 0%Z l.
(** calib_sensors_functions.py 26-35: mode *)
Definition mode (wf : list Z) : Q :=
  let p := filter (fun x => (0 <? x)%Z) wf in
  zq (fold_left (fun best v => if occurs best p <? occurs v p then v else best) (map Z.of_nat (seq 0 (Z.to_nat (maxZ p) + 1))) 0%Z).

(** calib_sensors_functions.py 17-23: scipy.stats.mode, the smallest of the most frequent values. The value for a waveform without
    samples is not used. *)
Definition scipy_mode (wf : list Z) : Q :=
  match wf with
  | [] => 0%Q
  | x :: l => zq (fold_left (fun best v => if (occurs best wf <? occurs v wf) || ((occurs best wf =? occurs v wf) && (v <? best)%Z) then v else best) l x)
  end.

(** calib_sensors_functions.py 60-90: subtract_baseline. The samples are integers, as those of the raw waveforms. *)
Inductive bls_mode := BlsMean | BlsMedian | BlsMode | BlsScipyMode | BlsOther.
(** for calib_sensors_functions.py 60-90: subtract_baseline *)
Definition baseline (m : bls_mode) (wf : list Z) : result Q :=
  match m with
  | BlsMean => Ok (mean0 wf)
  | BlsMedian => Ok (median0 wf)
  | BlsMode => Ok (mode wf)
  | BlsScipyMode => Ok (scipy_mode wf)
  | BlsOther => Err TypeError
  end.
(** calib_sensors_functions.py 60-90: subtract_baseline *)
Definition subtract_baseline (m : bls_mode) (wfs : list (list Z)) : result (list (list Q)) :=
  match m with
  | BlsOther => Err TypeError
  | _ => rmap (fun wf => rbind (baseline m wf) (fun b => Ok (map (fun x => if (x =? 0)%Z then 0%Q else (zq x - b)%Q) wf))) wfs
  end.

(** calib_sensors_functions.py 93-101: calibrate_wfs *)
Definition calibrate_wfs (wfs : list (list Q)) (adc_to_pes : list Q) : result (list (list Q)) :=
  per_row (fun wf g => map (fun x => if Qltb 0 g then (x / g)%Q else 0%Q) wf) wfs adc_to_pes.

(** calib_sensors_functions.py 104-106 and 143-149: subtract_baseline_and_calibrate, calibrate_sipms *)
Definition calibrate_sipms (m : bls_mode) (wfs : list (list Z)) (adc_to_pes : list Q) : result (list (list Q)) :=
  rbind (subtract_baseline m wfs) (fun bls => calibrate_wfs bls adc_to_pes).

(** scipy.signal.lfilter(np.full(n, 1/n), 1, wf): the average of the last [n] samples, those before the beginning being 0 *)
Definition maw (n : nat) (wf : list Q) : list Q := map (fun k => sumQ (slice (k + 1 - n) (k + 1) wf) / qn n)%Q (seq 0 (length wf)).

(** calib_sensors_functions.py 109-130: calibrate_pmts. 1 / n_maw fails for 0. The waveforms have [ns] samples. *)
Definition calibrate_pmts (ns : nat) (cwfs : list (list Q)) (adc_to_pes : list Q) (n_maw : nat) (thr_maw : Q)
  : result (list (list Q) * list (list Q) * list Q * list Q) :=
  if n_maw =? 0 then Err ZeroDivisionError else
  rbind (calibrate_wfs cwfs adc_to_pes) (fun ccwfs =>
  let ccwfs_maw := map2 (fun cwf ccwf => map2 (fun cm c => if Qle_bool (snd cm + thr_maw) (fst cm) then c else 0%Q) (combine cwf (maw n_maw cwf)) ccwf) cwfs ccwfs in
  Ok (ccwfs, ccwfs_maw, sum_over_sensors {| cols := ns; rows := ccwfs |}, sum_over_sensors {| cols := ns; rows := ccwfs_maw |})).

(** calib_sensors_functions.py 133-140: pmt_subtract_maw *)
Definition pmt_subtract_maw (n_maw : nat) (cwfs : list (list Q)) : result (list (list Q)) :=
  if n_maw =? 0 then Err ZeroDivisionError else Ok (map (fun wf => map2 Qminus wf (maw n_maw wf)) cwfs).

(** ---- integrals ---- *)
(** calib_functions.py 55-88: integral_limits; units.mus = 1000. A sample width of 0 is an error (of numpy scalars: not modelled). *)
Definition us : Q := 1000 # 1.
(** for calib_functions.py 55-88: integral_limits *)
Definition in_samples_floor (t sw : Q) : Z := Qfloor (t * us / sw)%Q.
(** for calib_functions.py 55-88: integral_limits *)
Definition in_samples_ceil (t sw : Q) : Z := Qceiling (t * us / sw)%Q.
(** calib_functions.py 55-88: integral_limits *)
Definition integral_limits (sw : Q) (n : nat) (start width period : Q) : list Z * list Z :=
  let f := in_samples_floor start sw in let w := in_samples_ceil width sw in let p := in_samples_ceil period sw in
  let e := (f + w)%Z in
  let corr := flat_map (fun k => [f + Z.of_nat k * p; e + Z.of_nat k * p]%Z) (seq 0 n) in
  (corr, map (fun x => x - w - Qfloor (2 * us / sw)%Q)%Z corr).

(** an array indexed with an array of booleans *)
Fixpoint select {A} (mask : list bool) (l : list A) : list A :=
  match mask, l with true :: m, a :: l => a :: select m l | false :: m, _ :: l => select m l | _, _ => [] end.
(** for calib_functions.py 91-118: filter_limits *)
Definition n_false (l : list bool) : nat := length (filter negb l).
(** within_buffer[i] = False, with [i] counted from the beginning or from the end *)
Definition set_false (i : nat) (l : list bool) : result (list bool) := if i <? length l then Ok (upd i false l) else Err IndexError.
(** for calib_functions.py 91-118: filter_limits *)
Definition set_false_end (i : nat) (l : list bool) : result (list bool) := if i <=? length l then Ok (upd (length l - i) false l) else Err IndexError.

(** calib_functions.py 91-118: filter_limits *)
Definition filter_limits (limits : list Z) (buffer_length : Z) : result (list Z) :=
  let within := map (fun x => (0 <=? x)%Z && (x <? buffer_length + 1)%Z) limits in
  let half := length limits / 2 in
  let n1 := n_false (firstn half within) in
  let n2 := n_false (skipn half within) in
  rbind (if Nat.odd n1 then set_false n1 within else Ok within) (fun within =>
  rbind (if Nat.odd n2 then set_false_end (n2 + 1) within else Ok within) (fun within =>
  Ok (select within limits))).

(** calib_functions.py 121-124: valid_integral_limits *)
Definition valid_integral_limits (sw : Q) (n : nat) (start width period : Q) (buffer_length : Z) : result (list Z * list Z) :=
  let '(corr, anti) := integral_limits sw n start width period in
  rbind (filter_limits corr buffer_length) (fun c => rbind (filter_limits anti buffer_length) (fun a => Ok (c, a))).

(** numpy.add.reduceat along a waveform *)
Fixpoint reduceat (wf : list Q) (limits : list nat) : list Q :=
  match limits with
  | [] => []
  | [a] => [sumQ (skipn a wf)]
  | a :: ((b :: _) as r) => (if a <? b then sumQ (slice a b wf) else nth a wf 0%Q) :: reduceat wf r
  end.
(** calib_functions.py 30-52: spaced_integrals; min([]) is a ValueError as well *)
Definition spaced_integrals (m : mat) (limits : list Z) : result (list (list Q)) :=
  match limits with
  | [] => Err ValueError
  | _ => if existsb (fun x => (x <? 0)%Z || (Z.of_nat (cols m) <=? x)%Z) limits then Err ValueError
         else Ok (map (fun wf => reduceat wf (map Z.to_nat limits)) (rows m))
  end.
(** components.py 1293-1296: waveform_integrator, array[:, ::2] *)
Fixpoint every_other {A} (l : list A) : list A := match l with a :: _ :: l => a :: every_other l | l => l end.
(** components.py 1293-1296: waveform_integrator *)
Definition waveform_integrator (m : mat) (limits : list Z) : result (list (list Q)) :=
  rbind (spaced_integrals m limits) (fun l => Ok (map every_other l)).

(** ---- sierpe/blr.pyx: deconvolve_signal ---- *)
Section Blr.
  (** the filter SGN.butter(1, coeff_clean, 'high') and the square root *)
  Variable b0 b1 a1 : Q.
  Variable sqrt : Q -> Q.

  (** scipy.signal.lfilter with one pole *)
  Fixpoint lfilter_from (px py : Q) (l : list Q) : list Q :=
    match l with [] => [] | x :: l => let y := (b0 * x + b1 * px - a1 * py)%Q in y :: lfilter_from x y l end.
  (** for blr.pyx 5-73 *)
  Definition lfilter (l : list Q) : list Q := match l with [] => [] | x :: l => let y := (b0 * x)%Q in y :: lfilter_from x y l end.

  (** blr.pyx 58-71: the accumulator after the sample [x] *)
  Definition next_acum (coef trigger thr_acum x acum : Q) : Q :=
    if Qltb x trigger && Qltb acum thr_acum then (if Qltb 1 acum then acum * (1 - coef) else 0)%Q else (acum + x)%Q.
  (** blr.pyx 51-71: the loop. The variable j, which counts the samples of the discharge, is not used in the result. *)
  Fixpoint recover (coef trigger thr_acum acum : Q) (l : list Q) : list Q :=
    match l with
    | [] => []
    | x :: l => (x + x * (coef / 2) + coef * acum)%Q :: recover coef trigger thr_acum (next_acum coef trigger thr_acum x acum) l
    end.

  (** blr.pyx 5-73 *)
  Definition n_noise : nat := 400.
  (** for blr.pyx 5-73 *)
  Definition trigger_line (thr_trigger : Q) (wf : list Q) : Q :=
    (thr_trigger * sqrt (sumQ (map (fun x => x * x) (firstn n_noise wf)) / qn n_noise))%Q.
  (** with blr.pyx 5-73 *)
  Definition deconvolve_signal (coef thr_trigger : Q) (wf : list Q) : result (list Q) :=
    if Qeqb coef 0 then Err ZeroDivisionError else
    if length wf <? n_noise then Err IndexError else
    match lfilter wf with
    | [] => Err IndexError
    | x :: l => Ok (x :: recover coef (trigger_line thr_trigger wf) (thr_trigger / coef)%Q 0 l)
    end.
End Blr.
