(** Independent vocabulary for corrected hits *)
From Verif Require Import Base CorrModel CorrSpec HitsModel HitsSpec.
Local Open Scope Q_scope.

(** the energy [c] is 41.55 keV (in MeV) times the energy [e] over the value of a bin of the map nearest to the drift time and the position *)
Definition calibrated (m : list kbin) (t x y : Q) (e c : num) : Prop :=
  match e with
  | Some e => exists q b mu, c = Some q /\ nearest_bin m (t, x, y) b mu /\ q * mu == e * (4155 # 100000)
  | None => c = None
  end.
(** [h'] is [h] corrected: everything but Z and Ec is the same. [dv] is the drift velocity, when Z is asked for *)
Definition corrected_hit (m : list kbin) (dv : option Q) (h h' : hit) : Prop :=
  hmeta h' = hmeta h /\ npeak h' = npeak h /\ hX h' = hX h /\ hY h' = hY h /\ hQ h' = hQ h /\ hE h' = hE h /\
  calibrated m (hZ h) (hX h) (hY h) (hE h) (hEc h') /\
  hZ h' = match dv with Some v => hZ h * v | None => hZ h end.
(** the map has values, none of them zero, and its normalization is a number other than zero *)
Definition usable_map (m : list kbin) (method : norm_method) (xy : option region) : Prop :=
  (exists b, In b m /\ kb_mu b <> None) /\ (forall b mu, In b m -> kb_mu b = Some mu -> ~ mu == 0) /\
  exists n, normalization m method xy = Ok (Some n) /\ ~ n == 0.
(** the velocity used: a median of the ones in the table *)
Definition velocity (dvs : list (option Q)) (apply_z : bool) (dv : option Q) : Prop :=
  if apply_z then exists v, dv = Some v /\ is_median (numbers dvs) v else dv = None.
(** a hit is inside a circle of the plane *)
Definition inside (R : Q) (h : hit) : bool := Qltb (hX h * hX h + hY h * hY h) (R * R).
Definition above (th : Q) (h : hit) : bool := Qle_bool th (hQ h).
(** what identifies a hit *)
Definition place (h : hit) : nat * nat * Q * Q * Q * Q := (hmeta h, npeak h, hX h, hY h, hZ h, hQ h).
