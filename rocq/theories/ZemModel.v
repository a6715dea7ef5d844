(** Model of the part of cities/zemrude.py that makes a krypton map and applies it to the data it comes from *)
From Verif Require Import Base PeaksModel DbModel CorrModel KmapModel.
Local Open Scope Q_scope.

(** types/symbols.py: MapFitFunction; [OtherFit] stands for any other value *)
Inductive fit_name := GaussianFit | MedianFit | OtherFit.

Section Zemrude.
  (** the standard deviation, the error of the mean, the fit of a gaussian to a histogram, griddata with method nearest *)
  Variable std : list Q -> val.
  Variable over_sqrt : val -> nat -> val.
  Variable fit : list Q -> nat -> option (val * val * val * val).
  Variable nearest : list (Q * Q * Q) -> Q * Q * Q -> nat.
  Variables (xy0 xy1 dt0 dt1 : Q) (xy_nbins dt_nbins : nat) (s0 s1 : Q).

  (** zemrude.py 61-73: create_selfmap *)
  Definition create_selfmap (name : fit_name) (nbins min_events : nat) (df : list krevent) : result (list map_row) :=
    match name with
    | GaussianFit => compute_3D_map (gaussian_fit std over_sqrt fit nbins min_events) xy0 xy1 dt0 dt1 xy_nbins dt_nbins s0 s1 df
    | MedianFit => compute_3D_map (get_median std over_sqrt) xy0 xy1 dt0 dt1 xy_nbins dt_nbins s0 s1 df
    | OtherFit => Err ValueError
    end.
  (** the columns k, dt, x, y and mu of the rows of the map *)
  Definition bin_of_row (r : map_row) : kbin :=
    let '(k, _, _) := r_key r in let '(t, x, y) := r_coord r in {| kb_k := k; kb_dt := t; kb_x := x; kb_y := y; kb_mu := mu (r_fit r) |}.
  (** the arguments DT, X, Y and S2e of apply_3Dmap; positions that are not numbers are not modelled *)
  Definition data_point (e : krevent) : result (Q * Q * Q * val) :=
    match kDT e, kX e, kY e with Some t, Some x, Some y => Ok ((t, x, y), kS2e e) | _, _, _ => Err NotModelled end.
  (** zemrude.py 82-85 and correction_functions.py 145-181: apply_selfmap, apply_correctionmap_inplace_kdst; the new column *)
  Definition apply_selfmap (method : norm_method) (xy : option region) (unit : option Q) (df : list krevent) (rows : list map_row) : result (list val) :=
    rbind (rmap data_point df) (apply_3Dmap nearest (map bin_of_row rows) method xy unit).
  (** zemrude.py 192-216: the column Ec_2 of the selected events *)
  Definition self_correction (name : fit_name) (nbins min_events : nat) (method : norm_method) (xy : option region) (df : list krevent) : result (list map_row * list val) :=
    rbind (create_selfmap name nbins min_events df) (fun rows =>
    rbind (apply_selfmap method xy (Some keV) df rows) (fun ec => Ok (rows, ec))).
End Zemrude.
