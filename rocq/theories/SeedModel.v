(** Model of how calib/calib_functions.py chooses the seeds of the calibration fits (lines 139-328). Numbers are real: the rounding of floats
    is not modelled. The searches and fits of scipy and the database are arguments. *)
From Coq Require Import Reals.
From Verif Require Import Base LifeModel.
Local Open Scope R_scope.

(** types/symbols.py: SensorType, and anything else *)
Inductive sensor_type := SIPM | PMT | OtherType.

(** fit_functions.py 111-119: gauss; without a positive sigma it gives a float, and the attribute sum of it raises *)
Definition gauss (v : R * R * R) (x : R) : R := let '(area, mu, sigma) := v in area / sqrt (2 * PI) / sigma * exp (- (1 / 2) * (x - mu) ^ 2 / sigma ^ 2).
(** numpy: l[mask].sum() and l[mask] with a mask made from the charges of the bins; arrays of other length raise *)
Definition chosen {A} (P : R -> bool) (bins : list R) (l : list A) : list A := map snd (filter (fun p => P (fst p)) (combine bins l)).
(** for calib_functions.py 189-214: sensor_values *)
Definition negative (c : R) : bool := if Rlt_dec c 0 then true else false.
(** for calib_functions.py 165-186: poisson_mu_seed *)
Definition central (c : R) : bool := if Rle_dec (-5) c then if Rle_dec c 5 then true else false else false.

(** calib_functions.py 139-146: dark_scaler *)
Definition dark_scaler (dark : list R) (mu : R) : list R := map (fun d => exp (- mu) * d) dark.

(** evm/ic_containers.py: SensorParams *)
Record params := { spectra : list R; peak_range : list nat; min_bin_peak : R; max_bin_peak : R; half_peak_width : nat; p1pe_seed : R; lim_ped : R }.

(** the ratio of the counts to the pedestal in the bins chosen by [P] (lines 170-171, 180 and 204); a null sum of the pedestal is not modelled *)
Definition scale_of (P : R -> bool) (bins spectrum : list R) (ped : R * R * R) : result R :=
  if negb (length bins =? length spectrum)%nat then Err IndexError else
  let '(_, _, sigma) := ped in
  if Rle_dec sigma 0 then Err AttributeError else
  let g := total (map (gauss ped) (filter P bins)) in
  if Req_EM_T g 0 then Err NotModelled else Ok (total (chosen P bins spectrum) / g).

(** calib_functions.py 189-214: sensor_values *)
Definition sensor_values (t : sensor_type) (bins spectrum : list R) (ped : R * R * R) : result params :=
  match t with
  | SIPM => Ok {| spectra := spectrum; peak_range := seq 4 16; min_bin_peak := 10; max_bin_peak := 22; half_peak_width := 5; p1pe_seed := 3; lim_ped := 10000 |}
  | PMT =>
    rbind (scale_of negative bins spectrum ped) (fun scale =>
    Ok {| spectra := map2 (fun s c => s - gauss ped c * scale) spectrum bins; peak_range := seq 10 10; min_bin_peak := 15; max_bin_peak := 50; half_peak_width := 10; p1pe_seed := 7; lim_ped := 10000 |})
  | OtherType => Err ValueError
  end.

(** Python: l[a:b], where a negative position is counted from the end *)
Definition py_slice {A} (a b : Z) (l : list A) : list A :=
  let pos i := Z.to_nat (if (i <? 0)%Z then Z.max 0 (Z.of_nat (length l) + i) else i) in slice (pos a) (pos b) l.

Section Seeds.
  (** scipy: find_peaks_cwt of a spectrum with the widths, the positions of its peaks *)
  Variable find_peaks : list R -> list nat -> list nat.
  (** fit_functions.py 166-226: the fit of a gaussian, from charges, counts and seed, within [(0, -100, 0), (inf, 100, 10000)]: its values *)
  Variable fit_gauss : list R -> list R -> R * R * R -> result (R * R * R).
  (** the fit of the scale of a spectrum: charges, counts, seed and errors *)
  Variable fit_scale : list R -> list R -> R -> option (list R) -> result R.

  (** numpy: argmax, the first of the largest; the elements are positions in [s] *)
  Fixpoint tallest (s : list R) (best : nat) (l : list nat) : nat :=
    match l with [] => best | i :: l => tallest s (if Rlt_dec (nth best s 0) (nth i s 0) then i else best) l end.
  (** numpy: argwhere(bins == c)[0][0] *)
  Fixpoint where_first (c : R) (i : nat) (bins : list R) : option nat :=
    match bins with [] => None | b :: l => if Req_EM_T b c then Some i else where_first c (S i) l end.
  (** calib_functions.py 240-248: the bin of the single photoelectron. Without any peak scipy gives an empty array of floats, and an array of
      floats cannot be used as positions. Peaks are positions of bins; a spectrum without bins is not modelled *)
  Definition centroid (v : params) (bins : list R) : result nat :=
    match find_peaks (spectra v) (peak_range v) with
    | [] => Err IndexError
    | peaks =>
      match filter (fun i => if Rlt_dec (min_bin_peak v) (nth i bins 0) then if Rlt_dec (nth i bins 0) (max_bin_peak v) then true else false else false) peaks with
      | [] => match where_first ((min_bin_peak v + max_bin_peak v) / 2) 0 bins with Some i => Ok i | None => Ok (length bins - 1)%nat end
      | i :: l => Ok (tallest (spectra v) i l)
      end
    end.
  (** calib_functions.py 231-265: compute_seeds_from_spectrum; bins without counts have no error, which fit (lines 211-214) refuses, and scipy
      refuses to fit nothing *)
  Definition compute_seeds_from_spectrum (v : params) (bins : list R) (ped : R * R * R) : result (R * R) :=
    rbind (centroid v bins) (fun c =>
    let cut (l : list R) := py_slice (Z.of_nat c - Z.of_nat (half_peak_width v)) (Z.of_nat c + Z.of_nat (half_peak_width v)) l in
    if existsb (fun s => if Req_EM_T s 0 then true else false) (cut (spectra v)) then Err ValueError else
    if (length (cut (spectra v)) =? 0)%nat then Err ValueError else
    rbind (fit_gauss (cut bins) (cut (spectra v)) (nth c (spectra v) 0, nth c bins 0, p1pe_seed v)) (fun g =>
    let '(_, mean, sigma) := g in
    let '(_, ped_mean, ped_sigma) := ped in
    Ok (mean - ped_mean, if Rle_dec sigma ped_sigma then 1 / 2 else sqrt (sigma ^ 2 - ped_sigma ^ 2)))).

  (** stat_functions.py 17-24: poisson_sigma *)
  Definition poisson_sigma (default : R) (x : list R) : list R := map (fun v => if Req_EM_T v 0 then default else sqrt v) x.
  (** calib_functions.py 165-186: poisson_mu_seed *)
  Definition poisson_mu_seed (t : sensor_type) (bins spectrum : list R) (ped : R * R * R) : result R :=
    match t with
    | SIPM =>
      rbind (scale_of central bins spectrum ped) (fun dscale =>
      fit_scale (filter central bins) (chosen central bins spectrum) dscale (Some (poisson_sigma 1 (chosen central bins spectrum))))
    | PMT =>
      rbind (scale_of negative bins spectrum ped) (fun dscale => fit_scale (filter negative bins) (chosen negative bins spectrum) dscale None)
    | OtherType => Err ValueError
    end.

  (** the tables of sensors of the database for the run: the columns adc_to_pes and Sigma, row by row *)
  Variables (DataSiPM DataPMT : list (R * R)).
  (** calib_functions.py 149-162: seeds_db; pandas counts negative channels from the end *)
  Definition iloc (l : list (R * R)) (n : Z) : result (R * R) :=
    let n := if (n <? 0)%Z then (Z.of_nat (length l) + n)%Z else n in
    if (n <? 0)%Z then Err IndexError else match nth_error l (Z.to_nat n) with Some r => Ok r | None => Err IndexError end.
  (** calib_functions.py 150-163: seeds_db *)
  Definition seeds_db (t : sensor_type) (n_chann : Z) : result (R * R) :=
    match t with SIPM => iloc DataSiPM n_chann | PMT => iloc DataPMT n_chann | OtherType => Err ValueError end.

  (** calib_functions.py 301-328: seeds_and_bounds for a fit with a dark spectrum (those with a gaussian pedestal are in SpeModel); the bound
      without value is infinite *)
  Definition seeds_and_bounds (t : sensor_type) (n_chann : Z) (bins spectrum : list R) (ped : R * R * R) (use_db : bool) : result (list R * (list R * list (option R))) :=
    rbind (sensor_values t bins spectrum ped) (fun v =>
    rbind (if use_db then seeds_db t n_chann else compute_seeds_from_spectrum v bins ped) (fun g =>
    rbind (poisson_mu_seed t bins spectrum ped) (fun mu =>
    let mu := if Rlt_dec mu 0 then 1 / 1000 else mu in
    Ok ([total spectrum; mu; fst g; snd g], ([0; 0; 0; 1 / 1000], [None; Some 10000; Some 10000; Some 10000]))))).
End Seeds.
