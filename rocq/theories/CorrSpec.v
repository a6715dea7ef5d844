(** What C38, C39, C56 and C62 say *)
From Verif Require Import Base PeaksModel CorrModel.
Local Open Scope Q_scope.

(** ---- C38 ---- *)
(** [x] is in bin [k] of [n] equal half-open bins from [a] to [b] *)
Definition in_bin (a b : Q) (n k : nat) (x : Q) : Prop := (k < n)%nat /\ a + qn k * ((b - a) / qn n) <= x /\ x < a + qn (S k) * ((b - a) / qn n).
Definition bin_centre (a b : Q) (n k : nat) : Q := a + (qn k + (1 # 2)) * ((b - a) / qn n).
(** the map has a row per bin in y and a column per bin in x *)
Definition shape (i : mapinfo) (m : grid) : Prop := length m = ny i /\ Forall (fun row => length row = nx i) m.
Definition cell (m : grid) (ky kx : nat) : val := nth kx (nth ky m []) None.
Definition inside (x : val) (a b : Q) : Prop := exists q, x = Some q /\ a <= q < b.
(** the content of the bin, or nan for positions outside *)
Definition looked_up (i : mapinfo) (m : grid) (xy : val * val) (v : val) : Prop :=
  (exists x y kx ky, xy = (Some x, Some y) /\ in_bin (xmin i) (xmax i) (nx i) kx x /\ in_bin (ymin i) (ymax i) (ny i) ky y /\ v = cell m ky kx) \/
  (~ (inside (fst xy) (xmin i) (xmax i) /\ inside (snd xy) (ymin i) (ymax i)) /\ v = None).

Definition is_greatest (l : list Q) (m : Q) : Prop := In m l /\ forall x, In x l -> x <= m.
Definition is_mean (l : list Q) (m : Q) : Prop := l <> [] /\ m * qn (length l) == sumQ l.
(** the middle of the sorted values, or half way between the two in the middle *)
Definition is_median (l : list Q) (m : Q) : Prop := l <> [] /\
  exists s, Permutation s l /\ StronglySorted Qle s /\
    ((exists h, (length s = 2 * h + 1)%nat /\ m = nth h s 0) \/ (exists h, (length s = 2 * h)%nat /\ m == (nth (h - 1) s 0 + nth h s 0) / 2)).
(** the numbers among values that may be nan *)
Fixpoint numbers (l : list val) : list Q := match l with [] => [] | Some q :: l => q :: numbers l | None :: l => numbers l end.
(** nan only if there is no number / nan if there is no value or one is nan *)
Definition ignoring_nan (R : list Q -> Q -> Prop) (l : list val) (v : val) : Prop := match v with Some q => R (numbers l) q | None => numbers l = [] end.
Definition with_nan (R : list Q -> Q -> Prop) (l : list val) (v : val) : Prop := match v with Some q => ~ In None l /\ R (numbers l) q | None => l = [] \/ In None l end.
(** the values of the bins whose centre is selected *)
Definition region_values (sel : Q -> Q -> bool) (i : mapinfo) (m : grid) : list val :=
  flat_map (fun ky => flat_map (fun kx => if sel (bin_centre (xmin i) (xmax i) (nx i) kx) (bin_centre (ymin i) (ymax i) (ny i) ky) then [cell m ky kx] else []) (seq 0 (nx i))) (seq 0 (ny i)).
Definition in_rectangle (x0 x1 y0 y1 x y : Q) : bool := Qle_bool x0 x && Qltb x x1 && (Qle_bool y0 y && Qltb y y1).
Definition in_circle (x0 y0 r x y : Q) : bool := Qltb ((x - x0) * (x - x0) + (y - y0) * (y - y0)) (r * r).
(** the value that the strategy asks for *)
Definition normalizes (i : mapinfo) (m : grid) (s : strategy) (r : result val) : Prop :=
  match s with
  | SMax => exists v, r = Ok v /\ ignoring_nan is_greatest (concat m) v
  | SMean => exists v, r = Ok v /\ ignoring_nan is_mean (concat m) v
  | SMedian => exists v, r = Ok v /\ ignoring_nan is_median (concat m) v
  | SKr => r = Ok (Some ((415575 # 10000) * (1 # 1000)))
  | SRectangle x0 x1 y0 y1 =>
    (exists v, r = Ok v /\ with_nan is_median (region_values (in_rectangle x0 x1 y0 y1) i m) v) \/
    (r = Err ValueError /\ region_values (in_rectangle x0 x1 y0 y1) i m = [])
  | SCircle x0 y0 rad =>
    (exists v, r = Ok v /\ with_nan is_median (region_values (in_circle x0 y0 rad) i m) v /\ region_values (in_circle x0 y0 rad) i m <> []) \/
    (r = Err ValueError /\ region_values (in_circle x0 y0 rad) i m = [])
  | SRegionNoOptions | SCustom None | SOther => r = Err ValueError
  | SCustom (Some v) => r = Ok (Some v)
  end.

(** ---- C62 ---- *)
(** the value at [t] on the straight line between the neighbouring entries, constant outside *)
Definition interpolated (ts ps : list Q) (t p : Q) : Prop :=
  (t <= nth 0 ts 0 /\ p == nth 0 ps 0) \/
  (nth (length ts - 1) ts 0 <= t /\ p == nth (length ts - 1) ps 0) \/
  (exists k, (S k < length ts)%nat /\ nth k ts 0 <= t <= nth (S k) ts 0 /\
     (p - nth k ps 0) * (nth (S k) ts 0 - nth k ts 0) == (nth (S k) ps 0 - nth k ps 0) * (t - nth k ts 0)).
(** [m] is the mean weighted with the inverse of the uncertainties *)
Definition is_weighted_mean (ps us : list Q) (m : Q) : Prop :=
  m * sumQ (map Qinv us) == sumQ (map (fun pu => fst pu * / snd pu) (combine ps us)).
Definition time_factor (ts ps us : list Q) (t f : Q) : Prop := exists p m, interpolated ts ps t p /\ is_weighted_mean ps us m /\ ~ m == 0 /\ f * m == p.

(** the factor of a point *)
Definition corrects (exp : Q -> Q) (me ml : sector_map) (ev : option evolution) (norm : val) (p : point) (f : val) : Prop :=
  exists e l fe fl, looked_up (sm_info me) (sm_e0 me) (px p, py p) e /\ looked_up (sm_info ml) (sm_lt ml) (px p, py p) l /\
    (match ev with None => fe = 1 /\ fl = 1 | Some v => time_factor (ev_ts v) (ev_e0 v) (ev_e0u v) (pt p) fe /\ time_factor (ev_ts v) (ev_lt v) (ev_ltu v) (pt p) fl end) /\
    match norm, e, l with
    | Some n, Some e, Some l => exists q, f = Some q /\ q * (e * fe) == exp (pz p / (l * fl)) * n
    | _, _, _ => f = None
    end.

(** ---- C39 ---- *)
Definition within (x : val) (a b : Q) : Prop := exists q, x = Some q /\ a <= q < b.
(** the row passes the cut on the width of the band *)
Definition in_band (low upp : Q -> Q) (r : krow) : Prop := exists z d, k_zrms r = Some z /\ k_dt r = Some d /\ low d <= z * z < upp d.
(** the cuts applied before and after the one on the number of rows of the event *)
Definition early_cuts low upp lx hx ls hs r : Prop := in_band low upp r /\ within (k_ec r) lx hx /\ within (k_s2t r) ls hs.
Definition late_cuts rmax ld hd ln hn r : Prop := within (k_r r) 0 rmax /\ within (k_dt r) ld hd /\ within (k_nsipm r) ln hn.
(** the events of a table, each once *)
Definition events_of (l : list krow) (ev : list Z) : Prop := NoDup ev /\ forall z, In z ev <-> exists r, In r l /\ k_event r = z.
(** [e] is the fraction of the events of [before] that have rows in [after] *)
Definition fraction (before after : list krow) (e : Q) : Prop :=
  exists evb eva, events_of before evb /\ events_of after eva /\ evb <> [] /\ incl eva evb /\ e * qn (length evb) == qn (length eva).

(** ---- C56 ---- *)
Definition dist2 (p q : Q * Q * Q) : Q := let '(a, b, c) := p in let '(d, e, f) := q in (a - d) * (a - d) + (b - e) * (b - e) + (c - f) * (c - f).
(** griddata takes a point of the map that is not farther than any other *)
Definition takes_nearest (nearest : list (Q * Q * Q) -> Q * Q * Q -> nat) : Prop :=
  forall l p, l <> [] -> (nearest l p < length l)%nat /\ forall q, In q l -> dist2 p (nth (nearest l p) l (0, 0, 0)) <= dist2 p q.
(** the bin has a value and none with value is closer to the point *)
Definition nearest_bin (m : list kbin) (p : Q * Q * Q) (b : kbin) (mu : Q) : Prop :=
  In b m /\ kb_mu b = Some mu /\ forall b', In b' m -> kb_mu b' <> None -> dist2 p (kb_dt b, kb_x b, kb_y b) <= dist2 p (kb_dt b', kb_x b', kb_y b').
(** the bins used by the normalization *)
Definition used_bin (method : norm_method) (xy : option region) (b : kbin) : bool :=
  let anode := (kb_k b =? 0)%nat in
  let here := match xy with Some r => Qle_bool (x_low r) (kb_x b) && Qltb (kb_x b) (x_high r) && (Qle_bool (y_low r) (kb_y b) && Qltb (kb_y b) (y_high r)) | None => false end in
  match method with
  | Maximum | MeanChamber | MedianChamber => true
  | MeanAnode | MedianAnode => anode
  | MeanRegionChamber | MedianRegionChamber => here
  | MeanRegionAnode | MedianRegionAnode => here && anode
  | OtherMethod => false
  end.
Definition summary_of (method : norm_method) : list Q -> Q -> Prop :=
  match method with
  | Maximum => is_greatest
  | MeanChamber | MeanAnode | MeanRegionChamber | MeanRegionAnode => is_mean
  | _ => is_median
  end.
Definition needs_region (method : norm_method) : bool := match method with Maximum | MeanChamber | MedianChamber | MeanAnode | MedianAnode => false | _ => true end.
