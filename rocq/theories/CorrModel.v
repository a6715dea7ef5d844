(** Model of reco/corrections.py, icaros/selection_functions.py and icaros/correction_functions.py *)
From Verif Require Import Base Arrays PeaksModel WfmModel.
Local Open Scope Q_scope.

(** a float that may be nan ([None]) *)
Notation val := (option Q).

(** core_functions.py 55-80: in_range with its default limits *)
Definition in_range (x a b : Q) : bool := Qle_bool a x && Qltb x b.
(** for selection_functions.py 36-66: select_var_inrange *)
Definition in_range_val (x : val) (a b : Q) : bool := match x with Some x => in_range x a b | None => false end.
(** numpy.linspace(a, b, n + 1) *)
Definition linspace (a b : Q) (n : nat) : list Q := map (fun k => a + qn k * (b - a) / qn n) (seq 0 (S n)).
(** numpy.digitize with increasing edges *)
Definition digitize (x : Q) (edges : list Q) : nat := length (filter (fun e => Qle_bool e x) edges).
(** core_functions.py 302-306: shift_to_bin_centers *)
Fixpoint shift_to_bin_centers (l : list Q) : list Q :=
  match l with a :: l' => match l' with b :: _ => a + (b - a) * (1 # 2) :: shift_to_bin_centers l' | [] => [] end | [] => [] end.

(** ---- reco/corrections.py ---- *)
(** the columns of mapinfo that are used *)
Record mapinfo := { xmin : Q; xmax : Q; ymin : Q; ymax : Q; nx : nat; ny : nat }.
(** for corrections.py 74-107: maps_coefficient_getter *)
Definition grid := list (list val).
(** corrections.py 205-208: get_xy_bins *)
Definition x_bins (i : mapinfo) : list Q := linspace (xmin i) (xmax i) (nx i).
(** for corrections.py 74-107: maps_coefficient_getter *)
Definition y_bins (i : mapinfo) : list Q := linspace (ymin i) (ymax i) (ny i).
(** corrections.py 74-107: maps_coefficient_getter, for a position; a position that is nan is outside *)
Definition coefficient (i : mapinfo) (m : grid) (xy : val * val) : result val :=
  match xy with
  | (Some x, Some y) =>
    if in_range x (xmin i) (xmax i) && in_range y (ymin i) (ymax i) then
      match nth_error m (digitize y (y_bins i) - 1) with
      | None => Err IndexError
      | Some row => match nth_error row (digitize x (x_bins i) - 1) with None => Err IndexError | Some v => Ok v end
      end
    else Ok None
  | _ => Ok None
  end.
(** corrections.py 96-105: get_maps_coefficient *)
Definition get_maps_coefficient (i : mapinfo) (m : grid) (x y : list val) : result (list val) :=
  if (length x =? length y)%nat then rmap (coefficient i m) (combine x y) else Err ValueError.

(** the values of a map that are not nan *)
Definition present (l : list val) : list Q := flat_map (fun v => match v with Some q => [q] | None => [] end) l.
(** for corrections.py 211-275: get_normalization_factor *)
Definition maxQ (l : list Q) : val := match l with [] => None | x :: l => Some (fold_left (fun a b => if Qltb a b then b else a) l x) end.
(** for corrections.py 211-275: get_normalization_factor *)
Definition nanmean (l : list val) : val := match present l with [] => None | q => Some (meanQ q) end.
(** for corrections.py 211-275: get_normalization_factor *)
Definition nanmedian (l : list val) : val := match present l with [] => None | q => Some (median q) end.
(** numpy.median: nan for no values, and if some is nan *)
Definition strict_median (l : list val) : val := if existsb (fun v => match v with None => true | _ => false end) l then None else match present l with [] => None | q => Some (median q) end.
(** boolean selection *)
Definition pick_where {A} (mask : list bool) (l : list A) : list A := map snd (filter (fun ba => fst ba) (combine mask l)).

(** types/symbols.py, NormStrategy, with the options that get_normalization_factor finds *)
Inductive strategy := SMax | SMean | SMedian | SKr | SRectangle (x0 x1 y0 y1 : Q) | SCircle (x0 y0 r : Q) | SRegionNoOptions | SCustom (v : option Q) | SOther.
(** corrections.py 211-275: get_normalization_factor; units.keV = 1/1000 *)
Definition normalization_factor (i : mapinfo) (e0 : grid) (s : strategy) : result val :=
  let cx := shift_to_bin_centers (x_bins i) in let cy := shift_to_bin_centers (y_bins i) in
  match s with
  | SMax => Ok (maxQ (present (concat e0)))
  | SMean => Ok (nanmean (concat e0))
  | SMedian => Ok (nanmedian (concat e0))
  | SKr => Ok (Some ((415575 # 10000) * (1 # 1000)))
  | SRectangle x0 x1 y0 y1 =>
    match pick_where (map (fun y => in_range y y0 y1) cy) e0 with
    | [] => Err ValueError
    | rows => Ok (strict_median (concat (map (pick_where (map (fun x => in_range x x0 x1) cx)) rows)))
    end
  | SCircle x0 y0 r =>
    match concat (map (fun yr => pick_where (map (fun x => in_range ((x - x0) * (x - x0) + (fst yr - y0) * (fst yr - y0)) 0 (r * r)) cx) (snd yr)) (combine cy e0)) with
    | [] => Err ValueError
    | l => Ok (strict_median l)
    end
  | SRegionNoOptions => Err ValueError
  | SCustom None => Err ValueError
  | SCustom (Some v) => Ok (Some v)
  | SOther => Err ValueError
  end.

(** numpy.interp for increasing abscissas *)
Fixpoint interp (t : Q) (ts ps : list Q) : val :=
  match ts, ps with
  | a :: ts', p :: ps' =>
    match ts', ps' with
    | b :: _, q :: _ => if Qltb t a then Some p else if Qltb t b then Some (p + (q - p) / (b - a) * (t - a)) else interp t ts' ps'
    | _, _ => Some p
    end
  | _, _ => None
  end.
(** numpy.average with weights 1/u *)
Definition weighted_mean (ps us : list Q) : Q := sumQ (map2 (fun p u => p * (1 / u)) ps us) / sumQ (map (fun u => 1 / u) us).
(** corrections.py 146-174: time_coefs_corr, for a time. Null uncertainties and means (infinities) are not modelled. *)
Definition time_coef (ts ps us : list Q) (t : Q) : result Q :=
  if existsb (fun u => Qeqb u 0) us then Err NotModelled else
  if Qeqb (sumQ (map (fun u => 1 / u) us)) 0 then Err ZeroDivisionError else
  if Qeqb (weighted_mean ps us) 0 then Err NotModelled else
  match interp t ts ps with Some p => Ok (p / weighted_mean ps us) | None => Err ValueError end.

(** the columns ts, e0, e0u, lt and ltu of the time evolution *)
Record evolution := { ev_ts : list Q; ev_e0 : list Q; ev_e0u : list Q; ev_lt : list Q; ev_ltu : list Q }.
(** for corrections.py 278-348: apply_all_correction_single_maps *)
Record sector_map := { sm_info : mapinfo; sm_e0 : grid; sm_lt : grid; sm_evol : option evolution }.
(** TimeEvolutionTableMissing *)
Definition time_evolution_table_missing : pyexc := Other 40.

Section Correction.
  (** numpy.exp *)
  Variable exp : Q -> Q.
  (** corrections.py 110-143 and 339-346: the factor of a position, when it is a number; division by zero (infinities) is not modelled *)
  Definition factor (norm e0 lt : val) (fe fl z : Q) : result val :=
    match norm, e0, lt with
    | Some n, Some e, Some l => if Qeqb (e * fe) 0 || Qeqb (l * fl) 0 then Err NotModelled else Ok (Some (1 / (e * fe) * exp (z / (l * fl)) * n))
    | _, _, _ => Ok None
    end.
  (** for corrections.py 278-348: apply_all_correction_single_maps *)
  Record point := { px : val; py : val; pz : Q; pt : Q }.
  (** for corrections.py 278-348: apply_all_correction_single_maps *)
  Definition point_factor (norm : val) (me ml : sector_map) (ev : option evolution) (p : point) : result val :=
    rbind (coefficient (sm_info me) (sm_e0 me) (px p, py p)) (fun e =>
    rbind (match ev with Some v => time_coef (ev_ts v) (ev_e0 v) (ev_e0u v) (pt p) | None => Ok 1 end) (fun fe =>
    rbind (coefficient (sm_info ml) (sm_lt ml) (px p, py p)) (fun l =>
    rbind (match ev with Some v => time_coef (ev_ts v) (ev_lt v) (ev_ltu v) (pt p) | None => Ok 1 end) (fun fl => factor norm e l fe fl (pz p))))).
  (** corrections.py 278-348: apply_all_correction_single_maps, for a list of points *)
  Definition apply_all_correction_single_maps (me ml : sector_map) (mt : option sector_map) (apply_temp : bool) (s : strategy) (ps : list point) : result (list val) :=
    rbind (normalization_factor (sm_info me) (sm_e0 me) s) (fun norm =>
    if apply_temp then
      match mt with
      | Some {| sm_evol := Some v |} => rmap (point_factor norm me ml (Some v)) ps
      | _ => Err time_evolution_table_missing
      end
    else rmap (point_factor norm me ml None) ps).
  (** corrections.py 351-379: apply_all_correction *)
  Definition apply_all_correction (m : sector_map) := apply_all_correction_single_maps m m (Some m).
End Correction.

(** ---- icaros/selection_functions.py ---- *)
(** a row of the pointlike table: the columns used here *)
Record krow := { k_event : Z; k_zrms : val; k_dt : val; k_ec : val; k_s2t : val; k_r : val; k_nsipm : val }.
(** pandas nunique *)
Definition n_events (l : list krow) : nat := length (nodup Z.eq_dec (map k_event l)).
(** selection_functions.py 8-33: eff_of_selection *)
Definition eff_of_selection (before after : list krow) : result Q := if (n_events before =? 0)%nat then Err ZeroDivisionError else Ok (qn (n_events after) / qn (n_events before)).
(** selection_functions.py 36-66: select_var_inrange; the limits may depend on the row *)
Definition select_var_inrange (l : list krow) (col low high : krow -> val) : result (list krow * Q) :=
  let sel := filter (fun r => match low r, high r with Some a, Some b => in_range_val (col r) a b | _, _ => false end) l in
  rbind (eff_of_selection l sel) (fun e => Ok (sel, e)).
(** selection_functions.py 69-96: select_1S1_1S2 *)
Definition select_1S1_1S2 (l : list krow) : result (list krow * Q) :=
  let sel := filter (fun r => (length (filter (fun r' => (k_event r' =? k_event r)%Z) l) =? 1)%nat) l in
  rbind (eff_of_selection l sel) (fun e => Ok (sel, e)).
(** for selection_functions.py 99-170: apply_selections *)
Definition vmap (f : Q -> Q) (v : val) : val := match v with Some x => Some (f x) | None => None end.
(** for selection_functions.py 99-170: apply_selections *)
Record efficiencies := { eff_band : Q; eff_xrays : Q; eff_s1s2 : Q; eff_s2t : Q; eff_rmax : Q; eff_dt : Q; eff_nsipm : Q; eff_total : Q }.
(** selection_functions.py 99-170: apply_selections *)
Definition apply_selections (kdst : list krow) (dtrms2_low dtrms2_upp : Q -> Q) (low_xrays high_xrays low_S2t high_S2t R_max low_DT high_DT low_nsipm high_nsipm : Q) : result (list krow * efficiencies) :=
  let const (q : Q) (r : krow) : val := Some q in
  rbind (select_var_inrange kdst (fun r => vmap (fun z => z * z) (k_zrms r)) (fun r => vmap dtrms2_low (k_dt r)) (fun r => vmap dtrms2_upp (k_dt r))) (fun '(df, e1) =>
  rbind (select_var_inrange df k_ec (const low_xrays) (const high_xrays)) (fun '(df, e2) =>
  rbind (select_var_inrange df k_s2t (const low_S2t) (const high_S2t)) (fun '(df, e3) =>
  rbind (select_1S1_1S2 df) (fun '(df, e4) =>
  rbind (select_var_inrange df k_r (const 0) (const R_max)) (fun '(df, e5) =>
  rbind (select_var_inrange df k_dt (const low_DT) (const high_DT)) (fun '(df, e6) =>
  rbind (select_var_inrange df k_nsipm (const low_nsipm) (const high_nsipm)) (fun '(df, e7) =>
  rbind (eff_of_selection kdst df) (fun t =>
  Ok (df, {| eff_band := e1; eff_xrays := e2; eff_s1s2 := e4; eff_s2t := e3; eff_rmax := e5; eff_dt := e6; eff_nsipm := e7; eff_total := t |}))))))))).

(** ---- icaros/correction_functions.py ---- *)
(** a bin of the krypton map: the columns used here *)
Record kbin := { kb_k : nat; kb_dt : Q; kb_x : Q; kb_y : Q; kb_mu : val }.
(** for correction_functions.py 15-81: normalization *)
Inductive norm_method := Maximum | MeanChamber | MedianChamber | MeanAnode | MedianAnode | MeanRegionChamber | MedianRegionChamber | MeanRegionAnode | MedianRegionAnode | OtherMethod.
(** for correction_functions.py 15-81: normalization *)
Record region := { x_low : Q; x_high : Q; y_low : Q; y_high : Q }.
(** for correction_functions.py 15-81: normalization *)
Definition has_mu (b : kbin) : bool := match kb_mu b with Some _ => true | None => false end.
(** correction_functions.py 15-81: normalization; a region that lacks a limit (KeyError) is not modelled *)
Definition normalization (m : list kbin) (method : norm_method) (xy : option region) : result val :=
  let m := filter has_mu m in
  let anode := filter (fun b => (kb_k b =? 0)%nat) m in
  match method with
  | Maximum => Ok (maxQ (present (map kb_mu m)))
  | MeanChamber => Ok (nanmean (map kb_mu m))
  | MedianChamber => Ok (nanmedian (map kb_mu m))
  | MeanAnode => Ok (nanmean (map kb_mu anode))
  | MedianAnode => Ok (nanmedian (map kb_mu anode))
  | _ =>
    match xy with
    | None => Err TypeError
    | Some r =>
      let m := filter (fun b => in_range (kb_x b) (x_low r) (x_high r) && in_range (kb_y b) (y_low r) (y_high r)) m in
      let anode := filter (fun b => (kb_k b =? 0)%nat) m in
      match method with
      | MeanRegionChamber => Ok (nanmean (map kb_mu m))
      | MedianRegionChamber => Ok (nanmedian (map kb_mu m))
      | MeanRegionAnode => Ok (nanmean (map kb_mu anode))
      | MedianRegionAnode => Ok (nanmedian (map kb_mu anode))
      | _ => Err ValueError
      end
    end
  end.

Section Apply.
  (** scipy.interpolate.griddata with method nearest: the index of the point of the map it takes *)
  Variable nearest : list (Q * Q * Q) -> Q * Q * Q -> nat.
  (** for correction_functions.py 84-142: apply_3Dmap *)
  Definition keV : Q := 1 # 1000.
  (** correction_functions.py 84-142: apply_3Dmap. An empty map, null values of the map and a null unit are not modelled. *)
  Definition apply_3Dmap (m : list kbin) (method : norm_method) (xy : option region) (unit : option Q) (data : list (Q * Q * Q * val)) : result (list val) :=
    let m := filter has_mu m in
    let points := map (fun b => (kb_dt b, kb_x b, kb_y b)) m in
    rbind (normalization m method xy) (fun norm =>
    rmap (fun d => let '(p, e) := d in
      match nth_error (present (map kb_mu m)) (nearest points p) with
      | None => Err NotModelled
      | Some mu =>
        if Qeqb mu 0 then Err NotModelled else
        match norm, e with
        | Some n, Some e =>
          match unit with
          | None => Ok (Some (e * (n / mu)))
          | Some u => if Qeqb u 0 then Err NotModelled else if Qeqb n 0 then Ok None else Ok (Some (e * (n / mu) / n * (4155 # 100) * keV / u))
          end
        | _, _ => Ok None
        end
      end) data).
End Apply.
