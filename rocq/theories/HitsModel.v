(** Model of invisible_cities/reco/hits_functions.py (lines 11-244) and of the function
    hits_thresholder of cities/components.py.
    A dataframe of hits is a list of records.  Energies are finite numbers or [None],
    which stands for nan and, in the output, for any non-finite number.  Sums that use
    machine numbers are exact here.  The index of the dataframe is the position in the
    list: the real code needs the index values to be distinct. *)
From Verif Require Import Base PeaksModel.
Local Open Scope Q_scope.

(** types/ic_types.py 8 *)
Definition NN : Q := -999999 # 1.
(** hits_functions.py 11: np.finfo(np.float64).eps = 2^-52 *)
Definition EPSILON : Q := 1 # 4503599627370496.

(** for hits_functions.py 72-137: merge_NN_hits *)
Definition num := option Q.
(** for hits_functions.py 72-137: merge_NN_hits *)
Definition nadd (a b : num) : num := match a, b with Some a, Some b => Some (a + b) | _, _ => None end.
(** for hits_functions.py 118-133 *)
Definition nmul (a b : num) : num := match a, b with Some a, Some b => Some (a * b) | _, _ => None end.
(** for hits_functions.py 118-133 *)
Definition ndiv (a : num) (b : Q) : num :=
  match a with Some a => if Qeqb b 0 then None else Some (a / b) | None => None end.
(** np.nansum / pandas Series.sum: nan entries are skipped *)
Definition nansum (l : list num) : Q := sumF (fun x => match x with Some x => x | None => 0 end) l.

(** hits_functions.py 14-31: e_from_q.  The division by zero, which happens only if the
    charges add up to exactly -EPSILON, is an error value. *)
Definition e_from_q (qs : list Q) (e : Q) : result (list Q) :=
  let d := sumQ qs + EPSILON in
  if Qeqb d 0 then Err NotModelled else Ok (map (fun q => q * e / d) qs).

(** hits_functions.py 34-69: sipms_above_threshold.  Rows (x, y, q, e). *)
Record sipm_hit := { sx : Q; sy : Q; sq : Q; se : Q }.
(** hits_functions.py 34-69: sipms_above_threshold *)
Definition sipms_above_threshold (xys : list (Q * Q)) (qs : list Q) (thr energy : Q) : result (list sipm_hit) :=
  if negb (length xys =? length qs)%nat then Err IndexError else
  match filter (fun p => Qle_bool thr (snd p)) (combine xys qs) with
  | [] => Ok [ {| sx := NN; sy := NN; sq := NN; se := energy |} ]
  | sel => rbind (e_from_q (map snd sel) energy) (fun es =>
           Ok (map2 (fun p e => {| sx := fst (fst p); sy := snd (fst p); sq := snd p; se := e |}) sel es))
  end.

(** a row of a dataframe of hits; [hmeta] stands for the columns event, time, Xpeak, Ypeak *)
Record hit := { hmeta : nat; npeak : nat; hX : Q; hY : Q; hZ : Q; hQ : Q; hE : num; hEc : num }.

(** hits_functions.py 124: np.isclose(dz, dz.min()) *)
Definition isclose (a b : Q) : bool := Qle_bool (Qabs (a - b)) ((1 # 100000000) + (1 # 100000) * Qabs b).

(** hits_functions.py 119-125: the hits that receive the energy of [nn] *)
Definition is_nn (h : hit) : bool := Qeqb (hQ h) NN.
(** for hits_functions.py 118-133 *)
Definition min_list (l : list Q) : Q := match l with [] => 0 | a :: l => fold_left Qmin l a end.
(** for hits_functions.py 118-133 *)
Definition candidate (same_peak : bool) (nn h : hit) : bool := negb same_peak || (npeak h =? npeak nn)%nat.
(** for hits_functions.py 118-133 *)
Definition dz_min (same_peak : bool) (hits : list hit) (nn : hit) : Q :=
  min_list (map (fun h => Qabs (hZ h - hZ nn)) (filter (candidate same_peak nn) hits)).
(** for hits_functions.py 118-133 *)
Definition closest (same_peak : bool) (hits : list hit) (nn : hit) (h : hit) : bool :=
  candidate same_peak nn h && isclose (Qabs (hZ h - hZ nn)) (dz_min same_peak hits nn).

(** hits_functions.py 118-133: the correction that hit [h] receives from [nn] in the
    column [col]; it is zero for the hits that are not among the closest ones *)
Definition correction (same_peak : bool) (hits : list hit) (col : hit -> num) (nn h : hit) : num :=
  if closest same_peak hits nn h then
    ndiv (nmul (col nn) (col h)) (nansum (map col (filter (closest same_peak hits nn) hits)))
  else Some 0.
(** for hits_functions.py 72-137: merge_NN_hits *)
Definition corrected (same_peak : bool) (hits nns : list hit) (col : hit -> num) (h : hit) : num :=
  nadd (col h) (fold_left (fun acc nn => nadd acc (correction same_peak hits col nn h)) nns (Some 0)).

(** hits_functions.py 72-137: merge_NN_hits *)
Definition merge_NN_hits (has_ec same_peak : bool) (hits : list hit) : list hit :=
  if existsb is_nn hits then
    let nns  := filter is_nn hits in
    let rest := filter (fun h => negb (is_nn h)) hits in
    map (fun h => {| hmeta := hmeta h; npeak := npeak h; hX := hX h; hY := hY h; hZ := hZ h; hQ := hQ h;
                     hE := corrected same_peak rest nns hE h;
                     hEc := if has_ec then corrected same_peak rest nns hEc h else hEc h |}) rest
  else hits.

(** hits_functions.py 140-209: empty_hit and apply_threshold, for the hits of one slice *)
Definition empty_hit (first : hit) (e ec : Q) : hit :=
  {| hmeta := hmeta first; npeak := npeak first; hX := NN; hY := NN; hZ := hZ first; hQ := NN; hE := Some e; hEc := Some ec |}.
(** hits_functions.py 160-209: apply_threshold *)
Definition apply_threshold (th : Q) (hits : list hit) : list hit :=
  let raw_e_slice := nansum (map hE hits) in
  let cor_e_slice := nansum (map hEc hits) in
  match filter (fun h => Qle_bool th (hQ h)) hits with
  | [] => match hits with [] => [] | first :: _ => [empty_hit first raw_e_slice cor_e_slice] end
  | sel =>
    let qsum := sumF hQ sel + EPSILON in
    map (fun h => {| hmeta := hmeta h; npeak := npeak h; hX := hX h; hY := hY h; hZ := hZ h; hQ := hQ h;
                     hE  := nmul (ndiv (Some (hQ h)) qsum) (Some (raw_e_slice + EPSILON));
                     hEc := nmul (ndiv (Some (hQ h)) qsum) (Some (cor_e_slice + EPSILON)) |}) sel
  end.

(** pandas groupby("Z"): the distinct values in increasing order *)
Fixpoint insert_q (x : Q) (l : list Q) : list Q :=
  match l with
  | [] => [x]
  | y :: l' => if Qltb x y then x :: l else if Qeqb x y then l else y :: insert_q x l'
  end.
(** for hits_functions.py 212-244: threshold_hits *)
Definition distinct_q (l : list Q) : list Q := fold_right insert_q [] l.

(** hits_functions.py 212-244: threshold_hits *)
Definition threshold_hits (th : Q) (hits : list hit) : list hit :=
  if Qle_bool th 0 then hits
  else flat_map (fun z => apply_threshold th (filter (fun h => Qeqb (hZ h) z) hits)) (distinct_q (map hZ hits)).

(** components.py 1731-1734: threshold_hits_and_merge_nn *)
Definition threshold_hits_and_merge_nn (th : Q) (same_peak : bool) (hits : list hit) : list hit :=
  merge_NN_hits true same_peak (threshold_hits th hits).
