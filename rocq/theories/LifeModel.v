(** Model of the seeds and of the parameters of the fits of the electron lifetime, reco/krmap_functions.py.
    Numbers are real: the rounding of floats is not modelled. *)
From Coq Require Import Reals.
From Verif Require Import Base.
Local Open Scope R_scope.

(** a number of numpy, with the results of a division by zero *)
Inductive number := Finite (r : R) | PlusInf | MinusInf | NaN.
(** numpy: a / b, where a zero [b] is positive *)
Definition divide (a b : R) : number :=
  if Req_EM_T b 0 then (if Rlt_dec 0 a then PlusInf else if Rlt_dec a 0 then MinusInf else NaN) else Finite (a / b).

(** Python: pairs are ordered by their first value and then by their second *)
Definition before (p q : R * R) : bool :=
  if Rlt_dec (fst p) (fst q) then true else if Rlt_dec (fst q) (fst p) then false else if Rle_dec (snd p) (snd q) then true else false.
(** for krmap_functions.py 38-62: expo_seed *)
Fixpoint insert (p : R * R) (l : list (R * R)) : list (R * R) := match l with [] => [p] | q :: l' => if before p q then p :: l else q :: insert p l' end.
(** Python: sorted *)
Definition sorted (l : list (R * R)) : list (R * R) := fold_right insert [] l.

(** krmap_functions.py 38-62: expo_seed; without data there is nothing to unpack, which raises ValueError *)
Definition expo_seed (x y : list R) : result (R * number) :=
  match sorted (combine x y) with
  | [] => Err ValueError
  | p :: l =>
    let y0 := snd p in
    let q := last l p in
    if Rle_dec y0 0 then Err ValueError else if Rle_dec (snd q) 0 then Err ValueError else
    Ok (y0, divide (- fst q) (ln (snd q / y0)))
  end.

(** numpy: min, max and mean of an array that is not empty *)
Definition minimum (a : R) (l : list R) : R := fold_left Rmin l a.
(** for krmap_functions.py 9-35: lin_seed *)
Definition maximum (a : R) (l : list R) : R := fold_left Rmax l a.
(** for krmap_functions.py 9-35: lin_seed *)
Definition total (l : list R) : R := fold_right Rplus 0 l.
(** for krmap_functions.py 9-35: lin_seed *)
Definition mean (l : list R) : R := total l / INR (length l).
(** krmap_functions.py 9-35: lin_seed; the minimum of an empty array raises ValueError *)
Definition lin_seed (x y : list R) : result (R * number) :=
  match x, y with
  | a :: x', b :: y' =>
    let (x0, x1) := (minimum a x', maximum a x') in
    let (y0, y1) := (minimum b y', maximum b y') in
    if Req_EM_T x1 x0 then Ok (mean y, Finite 0)
    else let s := (y1 - y0) / (x1 - x0) in Ok (y0 - s * x0, Finite s)
  | _, _ => Err ValueError
  end.

(** types/symbols.py 56-59: KrFitFunction *)
Inductive fit_type := expo_fit | linear_fit | log_lin_fit.
(** krmap_functions.py 65-85: select_fit_variables, on the columns DT and S2e; energies that are not positive have no logarithm: not modelled.
    The lines 83 and 84 give the columns as they are. *)
Definition select_fit_variables (t : fit_type) (DT S2e : list R) : result (list R * list R) :=
  match t with
  | linear_fit => Ok (DT, S2e)
  | expo_fit => Ok (DT, S2e)
  | log_lin_fit => if forallb (fun s => if Rlt_dec 0 s then true else false) S2e then Ok (DT, map (fun s => - ln s) S2e) else Err NotModelled
  end.

(** fit_functions.py 122-127: polynom and expo with two coefficients; a null mean is not modelled (the division is Coq's) *)
Definition polynom (x a b : R) : R := a + b * x.
(** fit_functions.py 126-127: expo *)
Definition expo (x const mean : R) : R := const * exp (x / mean).
(** krmap_functions.py 88-110: get_function_and_seed_lt *)
Definition get_function_and_seed_lt (t : fit_type) : (R -> R -> R -> R) * (list R -> list R -> result (R * number)) :=
  let linear_function x y0 slope := polynom x y0 slope in
  let expo_function x e0 lt := expo x e0 (- lt) in
  match t with
  | linear_fit => (linear_function, lin_seed)
  | log_lin_fit => (linear_function, lin_seed)
  | expo_fit => (expo_function, expo_seed)
  end.

(** krmap_functions.py 113-150: transform_parameters, on the two values, the two errors and the covariance of the fit; a null slope
    (an infinite lifetime) is not modelled *)
Definition transform_parameters (a b u_a u_b cov : R) : result ((R * R) * (R * R) * R) :=
  if Req_EM_T b 0 then Err NotModelled else
  let E0 := exp (- a) in
  let s_E0 := Rabs (E0 * u_a) in
  let lt := 1 / b in
  let s_lt := Rabs (lt ^ 2 * u_b) in
  Ok ((E0, lt), (s_E0, s_lt), E0 * lt ^ 2 * cov).
