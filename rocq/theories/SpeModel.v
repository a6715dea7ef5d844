(** Model of calib/spe_response.py (the spectra fitted to calibrate sensors), of poisson_factor in core/stat_functions.py and of the seeds
    and bounds of the fits in calib/calib_functions.py. Exact arithmetic; exponentials and gaussians are parameters. *)
From Verif Require Import Base Arrays NoiseModel.
From Coq Require Import Factorial.
Local Open Scope Q_scope.

(** for stat_functions.py 9-14: poisson_factor *)
Fixpoint qpow (x : Q) (k : nat) : Q := match k with O => 1 | S k => x * qpow x k end.
(** stat_functions.py 9-14: poisson_factor; [em] is numpy.exp(-mean) *)
Definition poisson_factor (em : Q) (k : nat) (mean : Q) : Q := qpow mean k * em / qnat (fact k).
(** spe_response.py 19-29: number_of_gaussians. The loop over itertools.count() may never end: [fuel] bounds its turns, [None] if they are
    not enough. *)
Fixpoint gaussians_from (fuel k : nat) (min_integral scale em mean : Q) (integrals : list Q) : option (nat * list Q) :=
  match fuel with
  | O => None
  | S fuel =>
    let integral := scale * poisson_factor em k mean in
    if Qle_bool integral min_integral then Some (k, integrals) else gaussians_from fuel (S k) min_integral scale em mean (integrals ++ [integral])
  end.
(** spe_response.py 19-29: number_of_gaussians *)
Definition number_of_gaussians (fuel : nat) (min_integral scale em mean : Q) : option (nat * list Q) := gaussians_from fuel 0 min_integral scale em mean [].
(** spe_response.py 32-37: suppress_negative_energy_contribution *)
Definition suppress_negative (xs ys : list Q) : list Q := map2 (fun x y => if Qle_bool 0 x then y else 0) xs ys.

Section Gauss.
  (** fit_functions.py 111-119: gauss(x, 1, mu, sigma), by the square of sigma *)
  Variable gauss : Q -> Q -> Q -> Q.
  (** spe_response.py 132-138: spectrum_component *)
  Definition component (xs : list Q) (integrals : list Q) (pm pv gain gv : Q) (i : nat) : list Q :=
    let g := map (fun x => gauss x (pm + qnat i * gain) (pv + qnat i * gv)) xs in
    let g := if (i =? 0)%nat then g else suppress_negative xs g in
    map (fun y => nth i integrals 0 * y) g.
  (** for spe_response.py 145-205: scaled_dark_pedestal *)
  Definition add_lists (a b : list Q) : list Q := map2 Qplus a b.
  (** sum(map(spectrum_component, range(first, n))): the integer 0 when the range is empty *)
  Definition add_components (xs : list Q) (f : nat -> list Q) (first n : nat) : list Q :=
    fold_left (fun acc i => add_lists acc (f i)) (seq first (n - first)) (map (fun _ => 0) xs).
  (** spe_response.py 56-142: poisson_scaled_gaussians; the result is the spectrum and the number of gaussians. [None] is no answer. *)
  Definition poisson_scaled_gaussians (first : nat) (n_gaussians : option nat) (min_integral : option Q) (fuel : nat)
    (xs : list Q) (scale em mean pm pv gain gv : Q) : option (result (list Q * nat)) :=
    match n_gaussians, min_integral with
    | None, None => Some (Err ValueError)
    | Some _, Some _ => Some (Err ValueError)
    | Some n, None => let integrals := map (fun k => scale * poisson_factor em k mean) (seq 0 n) in
        Some (Ok (add_components xs (component xs integrals pm pv gain gv) first n, n))
    | None, Some min_integral =>
        match number_of_gaussians fuel min_integral scale em mean with
        | None => None
        | Some (n, integrals) => Some (Ok (add_components xs (component xs integrals pm pv gain gv) first n, n))
        end
    end.
  (** spe_response.py 145-205: scaled_dark_pedestal *)
  Definition scaled_dark_pedestal (dark : list Q) (pm pv min_integral : Q) (fuel : nat) (xs : list Q) (scale em mean gain gv : Q) : option (result (list Q * nat)) :=
    match poisson_scaled_gaussians 1 None (Some min_integral) fuel xs scale em mean pm pv gain gv with
    | Some (Ok (signal, n)) => Some (Ok (add_lists (map (fun d => em * d) dark) signal, n))
    | r => r
    end.
  (** spe_response.py 10-16: get_padding *)
  Definition get_padding (bins : list Q) : nat * nat :=
    let neg := length (filter (fun x => Qle_bool x 0) bins) in let pos := length (filter (fun x => Qltb 0 x) bins) in ((pos - neg)%nat, (neg - pos)%nat).
  (** for spe_response.py 208-279: dark_convolution *)
  Definition pad (p : nat * nat) (l : list Q) : list Q := repeat 0 (fst p) ++ l ++ repeat 0 (snd p).
  (** spe_response.py 272-276: the loop of dark_convolution over 1 .. n-1. numpy.convolve in mode "same" of two arrays of the same length is
      NoiseModel.convolve_same. *)
  Fixpoint convolutions (p : nat * nat) (pe integrals : list Q) (convolved signal : list Q) (i todo : nat) : list Q :=
    match todo with
    | O => signal
    | S todo =>
      let convolved := convolve_same convolved pe in
      let signal := add_lists signal (map (fun y => nth i integrals 0 * y) (slice (fst p) (length convolved - snd p) convolved)) in
      convolutions p pe integrals convolved signal (S i) todo
    end.
  (** spe_response.py 208-279: dark_convolution. A spectrum without entries, or energies in other number than the bins, are not modelled. *)
  Definition dark_convolution (bins dark : list Q) (min_integral : Q) (fuel : nat) (xs : list Q) (scale em mean gain gv : Q) : option (result (list Q * nat)) :=
    if Qeqb (sumQ dark) 0 || negb (length xs =? length bins)%nat || negb (length dark =? length bins)%nat then Some (Err NotModelled) else
    let p := get_padding bins in
    let dark_norm := pad p (map (fun d => d / sumQ dark) dark) in
    let pe := pad p (suppress_negative xs (map (fun x => gauss x gain gv) xs)) in
    match number_of_gaussians fuel min_integral scale em mean with
    | None => None
    | Some (n, integrals) => Some (Ok (add_lists (map (fun d => em * d) dark) (convolutions p pe integrals dark_norm (map (fun _ => 0) dark) 1 (n - 1)), n))
    end.
End Gauss.

(** calib_functions.py 217-227: pedestal_values, from the values and errors (area, mean, sigma) of a fit *)
Record pedestal := { p_gain : Q; p_gain_min : Q; p_gain_max : Q; p_sigma : Q; p_sigma_min : Q; p_sigma_max : Q }.
(** calib_functions.py 217-227: pedestal_values *)
Definition pedestal_values (mean sigma lim mean_err sigma_err : Q) : pedestal :=
  {| p_gain := mean; p_gain_min := mean - lim * mean_err; p_gain_max := mean + lim * mean_err;
     p_sigma := sigma; p_sigma_min := (if Qltb (1 # 1000) (sigma - lim * sigma_err) then sigma - lim * sigma_err else 1 # 1000); p_sigma_max := sigma + lim * sigma_err |}.
(** calib_functions.py 303-327: seeds_and_bounds, given the gain and the number of photons found before; an upper bound [None] is infinite.
    [gau]: 'gau' in func *)
Definition seeds_and_bounds (gau : bool) (ped : pedestal) (norm_seed mu_seed gain_seed gain_sigma_seed : Q) : list Q * (list Q * list (option Q)) :=
  let mu_seed := if Qltb mu_seed 0 then 1 # 1000 else mu_seed in
  ([norm_seed; mu_seed] ++ (if gau then [p_gain ped; p_sigma ped] else []) ++ [gain_seed; gain_sigma_seed],
   ([0; 0] ++ (if gau then [p_gain_min ped; p_gain_max ped] else []) ++ [0; 1 # 1000],
    [None; Some 10000] ++ (if gau then [Some (p_sigma_min ped); Some (p_sigma_max ped)] else []) ++ [Some 10000; Some 10000])).
