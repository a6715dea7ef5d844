(** Model of fit and fixed_parameters of core/fit_functions.py *)
From Coq Require Import String.
From Verif Require Import Base PeaksModel CorrModel.
Local Open Scope Q_scope.

(** ---- fixed_parameters ---- *)
Section Fixed.
  Context {X Y : Type}.
  (** for fit_functions.py 25-29 *)
  Fixpoint keyword (kwargs : list (string * val)) (k : string) : val := match kwargs with [] => None | (k', v) :: l => if String.eqb k k' then v else keyword l k end.
  (** fit_functions.py 25-29: the values of the arguments after the first, nan for those that are free *)
  Definition all_args (fn_pars : list string) (kwargs : list (string * val)) : list val := map (keyword kwargs) fn_pars.
  (** for fit_functions.py 20-54 *)
  Definition isnan (v : val) : bool := match v with None => true | Some _ => false end.
  (** fit_functions.py 20-54: what the new function keeps: the arguments and which are free; values that are not numbers are not modelled *)
  Definition fixed_parameters (fn_pars : list string) (kwargs : list (string * val)) : result (list val * list bool) :=
    let args := all_args fn_pars kwargs in
    let free := map isnan args in
    if forallb id free then Err ValueError
    else if negb (existsb id free) then Err ValueError
    else if (Z.of_nat (List.length fn_pars) - Z.of_nat (List.length kwargs) <? Z.of_nat (List.length (filter id free)))%Z then Err ValueError
    else Ok (args, free).
  (** numpy: args[mask] = values, where one value is enough for all places *)
  Fixpoint fill (args : list val) (mask : list bool) (values : list val) : list val :=
    match args, mask with
    | a :: args, true :: mask => match values with v :: values => v :: fill args mask values | [] => a :: fill args mask [] end
    | a :: args, false :: mask => a :: fill args mask values
    | _, _ => args
    end.
  (** for fit_functions.py 39-45 *)
  Definition set_masked (args : list val) (mask : list bool) (values : list val) : result (list val) :=
    let n := List.length (filter id mask) in
    if (List.length values =? n)%nat then Ok (fill args mask values)
    else match values with [v] => Ok (fill args mask (repeat v n)) | _ => Err ValueError end.
  (** fit_functions.py 39-45: a call; the array of arguments is kept from call to call *)
  Definition fixed_fn (fn : X -> list val -> result Y) (free : list bool) (args : list val) (x : X) (pars : list val) : list val * result Y :=
    match set_masked args free pars with
    | Err e => (args, Err e)
    | Ok args => (args, fn x args)
    end.
  (** with fit_functions.py 39-45 *)
  Fixpoint calls (fn : X -> list val -> result Y) (free : list bool) (args : list val) (l : list (X * list val)) : list (result Y) :=
    match l with
    | [] => []
    | (x, pars) :: l => let '(args, r) := fixed_fn fn free args x pars in r :: calls fn free args l
    end.
  (** fit_functions.py 51-53: the names of the parameters of the new function after the first *)
  Definition new_pars (fn_pars : list string) (free : list bool) : list string := map fst (filter snd (combine fn_pars free)).
End Fixed.

(** ---- fit ---- *)
Section Fit.
  Context {Seed Cov : Type}.
  (** the function to fit, scipy's curve_fit (x, y, seed, sigma, absolute_sigma) and the square roots of the diagonal *)
  Variable func : Q -> list Q -> Q.
  Variable curve_fit : list Q -> list Q -> Seed -> option (list Q) -> bool -> result (list Q * Cov).
  Variable get_errors : Cov -> list Q.
  (** for fit_functions.py 166-226: fit *)
  Record fit_result := { f_values : list Q; f_errors : list Q; f_chi2 : val; f_cov : Cov; f_fn : Q -> Q }.
  (** numpy: an array indexed with a mask *)
  Definition masked {A} (mask : list bool) (l : list A) : result (list A) :=
    if (List.length mask =? List.length l)%nat then Ok (map snd (filter fst (combine mask l))) else Err IndexError.
  (** fit_functions.py 103-106: the reduced chi2; without degrees of freedom it is infinite or nan *)
  Definition chi2_ndf (ydata yfit sigma : list Q) (ndf : Z) : val :=
    if (ndf =? 0)%Z then None else
    Some (sumQ (map2 (fun d s => (d / s) * (d / s)) (map2 Qminus ydata yfit) sigma) / inject_Z ndf).
  (** fit_functions.py 166-226: fit; arrays of different lengths without a range, and sigma given as None, are not modelled *)
  Definition fit (x y : list Q) (seed : Seed) (fit_range : option (Q * Q)) (sigma : option (list Q)) : result fit_result :=
    rbind (match fit_range with
           | None => Ok (x, y, sigma)
           | Some (lo, hi) =>
             let sel := map (fun q => in_range q lo hi) x in
             rbind (masked sel x) (fun x => rbind (masked sel y) (fun y =>
             match sigma with None => Ok (x, y, None) | Some s => rbind (masked sel s) (fun s => Ok (x, y, Some s)) end))
           end) (fun xys => let '(x, y, sigma) := xys in
    let sigma_r := match sigma with Some s => s | None => repeat 1 (List.length y) end in
    if existsb (fun s => Qle_bool s 0) sigma_r then Err ValueError else
    if negb ((List.length x =? List.length y) && (List.length sigma_r =? List.length y))%nat then Err NotModelled else
    rbind (curve_fit x y seed sigma (match sigma with Some _ => true | None => false end)) (fun vc =>
    let '(vals, cov) := vc in
    Ok {| f_values := vals; f_errors := get_errors cov; f_cov := cov; f_fn := fun q => func q vals;
          f_chi2 := chi2_ndf y (map (fun q => func q vals) x) sigma_r (Z.of_nat (List.length y) - Z.of_nat (List.length vals)) |})).
End Fit.
