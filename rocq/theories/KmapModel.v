(** Model of icaros/krmap_functions.py (the krypton map) and of select_lifetime_region *)
From Verif Require Import Base Arrays PeaksModel WfmModel DbModel CorrModel.
Local Open Scope Q_scope.

(** the indices k, i, j of a bin *)
Notation key := (nat * nat * nat)%type.
(** for krmap_functions.py 185-248: fit_map *)
Definition key_dec : forall a b : key, {a = b} + {a <> b}. Proof. repeat decide equality. Defined.
(** the lexicographic order, in which groupby returns its groups *)
Definition key_le (a b : key) : bool :=
  let '(k, i, j) := a in let '(k', i', j') := b in
  (k <? k')%nat || ((k =? k')%nat && ((i <? i')%nat || ((i =? i')%nat && (j <=? j')%nat))).
(** for krmap_functions.py 185-248: fit_map *)
Definition group_keys (l : list key) : list key := sort_by key_le (nodup key_dec l).
(** the columns that result from the fit of a bin *)
Record fitted := { nevents : val; mu : val; sigma : val; mu_error : val; sigma_error : val }.
(** for krmap_functions.py 55-90: create_empty_map *)
Definition nan_row : fitted := {| nevents := None; mu := None; sigma := None; mu_error := None; sigma_error := None |}.

(** krmap_functions.py 55-90: create_empty_map *)
Definition create_empty_map (xy_nbins dt_nbins : nat) : list (key * fitted) :=
  map (fun kij => (kij, nan_row)) (list_prod (list_prod (seq 0 dt_nbins) (seq 0 xy_nbins)) (seq 0 xy_nbins)).

Section Fit.
  (** the standard deviation, the error of the mean and the fit of a gaussian to a histogram ([None]: it raised) *)
  Variable std : list Q -> val.
  Variable over_sqrt : val -> nat -> val.
  Variable fit : list Q -> nat -> option (val * val * val * val).
  (** krmap_functions.py 93-121: get_median; groups are not empty *)
  Definition get_median (var : list Q) : fitted :=
    let s := if (length var <? 5)%nat then Some ((4 # 100) / (235 # 100) * median var) else std var in
    {| nevents := Some (qn (length var)); mu := if (length var <? 5)%nat then None else Some (median var); sigma := s; mu_error := over_sqrt s (length var); sigma_error := None |}.
  (** krmap_functions.py 125-175: gaussian_fit *)
  Definition gaussian_fit (nbins min_events : nat) (var : list Q) : fitted :=
    if (length var <? min_events)%nat then get_median var else
    match fit var nbins with
    | None => {| nevents := Some (qn (length var)); mu := None; sigma := None; mu_error := None; sigma_error := None |}
    | Some (m, s, me, se) =>
      if negb (in_range_val m ((1 # 2) * median var) ((3 # 2) * median var)) then get_median var
      else {| nevents := Some (qn (length var)); mu := m; sigma := s; mu_error := me; sigma_error := se |}
    end.
End Fit.

(** a row of the pointlike table: the columns used here *)
Record krevent := { kX : val; kY : val; kDT : val; kS2e : val; ktime : Q }.

Section Map.
  Variable fit_function : list Q -> fitted.
  Variables (xy0 xy1 dt0 dt1 : Q) (xy_nbins dt_nbins : nat) (s0 s1 : Q).
  (** krmap_functions.py 224-241: the bin and the energy of the rows in range *)
  Definition binned (e : krevent) : list (key * Q) :=
    match kX e, kY e, kDT e, kS2e e with
    | Some x, Some y, Some t, Some s =>
      if in_range x xy0 xy1 && in_range y xy0 xy1 && in_range t dt0 dt1 && in_range s s0 s1 then
        [((digitize t (linspace dt0 dt1 dt_nbins) - 1, digitize x (linspace xy0 xy1 xy_nbins) - 1, digitize y (linspace xy0 xy1 xy_nbins) - 1)%nat, s)]
      else []
    | _, _, _, _ => []
    end.
  (** krmap_functions.py 185-248: fit_map; a table without rows in range is not modelled *)
  Definition fit_map (df : list krevent) : result (list (key * fitted)) :=
    let rows := flat_map binned df in
    match rows with
    | [] => Err NotModelled
    | _ => Ok (map (fun k => (k, fit_function (map snd (filter (fun r => if key_dec (fst r) k then true else false) rows)))) (group_keys (map fst rows)))
    end.
  (** groupby(...).first(): the first value that is not nan, column by column *)
  Fixpoint first_value (l : list val) : val := match l with [] => None | Some q :: _ => Some q | None :: l => first_value l end.
  (** for krmap_functions.py 251-275: merge_maps *)
  Definition first_row (l : list fitted) : fitted :=
    {| nevents := first_value (map nevents l); mu := first_value (map mu l); sigma := first_value (map sigma l); mu_error := first_value (map mu_error l); sigma_error := first_value (map sigma_error l) |}.
  (** krmap_functions.py 251-275: merge_maps *)
  Definition merge_maps (nan_map map_3D : list (key * fitted)) : list (key * fitted) :=
    let full := map_3D ++ nan_map in
    map (fun k => (k, first_row (map snd (filter (fun r => if key_dec (fst r) k then true else false) full)))) (group_keys (map fst full)).
  (** krmap_functions.py 278-312: include_coordinates, the coordinates dt, x, y of a bin *)
  Definition coordinates (kij : key) : Q * Q * Q :=
    let '(k, i, j) := kij in
    (dt0 + ((1 # 2) + qn k) * ((dt1 - dt0) / qn dt_nbins), xy0 + ((1 # 2) + qn i) * ((xy1 - xy0) / qn xy_nbins), xy0 + ((1 # 2) + qn j) * ((xy1 - xy0) / qn xy_nbins)).

  (** krmap_functions.py 315-346: regularize_map on the flattened column mu; [b] and [c] are the second and third dimensions *)
  Definition index (b c : nat) (p : key) : nat := let '(k, i, j) := p in ((k * b + i) * c + j)%nat.
  (** for krmap_functions.py 349-405: compute_3D_map *)
  Definition at_bin (b c : nat) (m : list val) (p : key) : val := nth (index b c p) m None.
  (** the positions in the order of the loops *)
  Definition scan (a b c : nat) : list key := list_prod (list_prod (seq 0 a) (seq 1 (b - 2))) (seq 1 (c - 2)).
  (** for krmap_functions.py 349-405: compute_3D_map *)
  Definition neighbours (p : key) : list key :=
    let '(k, i, j) := p in [(k, i - 1, j - 1); (k, i - 1, j); (k, i - 1, j + 1); (k, i, j - 1); (k, i, j + 1); (k, i + 1, j - 1); (k, i + 1, j); (k, i + 1, j + 1)]%nat.
  (** for krmap_functions.py 349-405: compute_3D_map *)
  Definition nans (l : list val) : nat := length (filter (fun v => match v with None => true | Some _ => false end) l).
  (** for krmap_functions.py 349-405: compute_3D_map *)
  Definition regularize_step (b c : nat) (m : list val) (p : key) : list val :=
    match at_bin b c m p with
    | Some _ => m
    | None => let vals := map (at_bin b c m) (neighbours p) in if (3 <? nans vals)%nat then m else upd (index b c p) (nanmean vals) m
    end.
  (** for krmap_functions.py 349-405: compute_3D_map *)
  Definition regularize (a b c : nat) (m : list val) : result (list val) :=
    if (length m =? a * b * c)%nat then Ok (fold_left (regularize_step b c) (scan a b c) m) else Err ValueError.

  (** for krmap_functions.py 349-405: compute_3D_map *)
  Record map_row := { r_key : key; r_fit : fitted; r_coord : Q * Q * Q; r_density : val }.
  (** for krmap_functions.py 349-405: compute_3D_map *)
  Definition set_mu (v : val) (f : fitted) : fitted := {| nevents := nevents f; mu := v; sigma := sigma f; mu_error := mu_error f; sigma_error := sigma_error f |}.
  (** for krmap_functions.py 349-405: compute_3D_map *)
  Definition hours (df : list krevent) : Q := let ts := map ktime df in ((match maxQ ts with Some q => q | None => 0 end) - (match maxQ (map Qopp ts) with Some q => - q | None => 0 end)) / 3600.
  (** krmap_functions.py 349-405: compute_3D_map; null durations and volumes (infinite densities) are not modelled *)
  Definition compute_3D_map (df : list krevent) : result (list map_row) :=
    if (dt_nbins =? 0)%nat || (xy_nbins =? 0)%nat then Err ZeroDivisionError else
    rbind (fit_map df) (fun fits =>
    let merged := merge_maps (create_empty_map xy_nbins dt_nbins) fits in
    let volume := (dt1 - dt0) / qn dt_nbins * ((xy1 - xy0) / qn xy_nbins) * ((xy1 - xy0) / qn xy_nbins) * (1 # 1000) in
    if Qeqb (hours df) 0 || Qeqb volume 0 then Err NotModelled else
    rbind (regularize dt_nbins xy_nbins xy_nbins (map (fun r => mu (snd r)) merged)) (fun mus =>
    Ok (map2 (fun r m => {| r_key := fst r; r_fit := set_mu m (snd r); r_coord := coordinates (fst r); r_density := vmap (fun n => n / volume / hours df) (nevents (snd r)) |}) merged mus))).
End Map.

(** krmap_functions.py 651-693: get_time_evol; the slice of each row and the rows of each slice, in order. [len] = slice_hours * 3600.
    numpy.arange(tmin, tmax + len, len) is cut after as many edges as fit. *)
Definition arange (a b s : Q) : list Q := map (fun k => a + qn k * s) (seq 0 (Z.to_nat (Qceiling ((b - a) / s)))).
(** for krmap_functions.py 651-693: get_time_evol *)
Definition min_time (l : list krevent) : val := match maxQ (map (fun e => - ktime e) l) with Some q => Some (- q) | None => None end.
(** for krmap_functions.py 651-693: get_time_evol *)
Definition max_time (l : list krevent) : val := maxQ (map ktime l).
(** with krmap_functions.py 651-693: get_time_evol *)
Definition time_slices (len : Q) (df : list krevent) : list (list krevent) :=
  match min_time df, max_time df with
  | Some a, Some b =>
    let bins := arange a (b + len) len in
    map (fun n => filter (fun e => (digitize (ktime e) bins =? n)%nat) df) (sort_by Nat.leb (nodup Nat.eq_dec (map (fun e => digitize (ktime e) bins) df)))
  | _, _ => []
  end.

(** lifetime_vdrift_functions.py 13-50: select_lifetime_region *)
Inductive region_shape := Square | Circle | OtherShape.
(** lifetime_vdrift_functions.py 13-50: select_lifetime_region *)
Definition select_lifetime_region (df : list krevent) (x0 y0 : Q) (shape : region_shape) (size : Q) : result (list krevent) :=
  let xy (P : Q -> Q -> bool) (e : krevent) : bool := match kX e, kY e with Some x, Some y => P x y | _, _ => false end in
  match shape with
  | Square => Ok (filter (xy (fun x y => in_range x (x0 - size) (x0 - size + 2 * size) && in_range y (y0 - size) (y0 - size + 2 * size))) df)
  | Circle => Ok (filter (xy (fun x y => Qle_bool ((x - x0) * (x - x0) + (y - y0) * (y - y0)) (size * size))) df)
  | OtherShape => Err UnboundLocalError
  end.
