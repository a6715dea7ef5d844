(** Vocabulary for C99: what a row of the time evolution says of the rows of its slice *)
From Verif Require Import FiltersSpec.
From Verif Require Import Base PeaksModel WfmModel CorrModel CorrSpec KmapModel KmapSpec TevModel.
Local Open Scope Q_scope.

(** [n] different values *)
Definition different (l : list Z) (n : nat) : Prop := exists u, NoDup u /\ (forall x, In x u <-> In x l) /\ List.length u = n.
Definition times (s : list tevent) : list Q := map (fun e => ktime (te e)) s.
(** the rows of the square (without its upper edges) or of the circle used for the lifetime *)
Definition inside (x0 y0 : Q) (shape : region_shape) (size : Q) (e : krevent) : Prop :=
  exists x y, kX e = Some x /\ kY e = Some y /\
    match shape with Square => - size <= x - x0 < size /\ - size <= y - y0 < size | Circle => (x - x0) * (x - x0) + (y - y0) * (y - y0) <= size * size | OtherShape => False end.

(** events, times and rate *)
Definition counts_of (s : list tevent) (r : tevol) : Prop :=
  different (map te_event s) (v_nevents r) /\ is_least (times s) (v_ts r) /\
  exists t1, is_greatest (times s) t1 /\
    (v_ts r < t1 -> exists q, v_rate r = Some q /\ q * (t1 - v_ts r) == qn (v_nevents r)) /\ (v_ts r == t1 -> v_rate r = None).
(** averages: numbers that are missing do not count *)
Definition averages_of (s : list tevent) (s1_lo s1_hi : Q) (r : tevol) : Prop :=
  ignoring_nan is_mean (map (fun e => kS2e (te e)) s) (v_s2e r) /\
  map fst (v_means r) = columns /\ (forall c m u, In (c, (m, u)) (v_means r) -> ignoring_nan is_mean (map (fun e => te_col e c) s) m) /\
  (forall q, v_s1e r = Some q -> exists l, is_mean (map te_S1e l) q /\ forall e, In e l <-> In e s /\ exists t, kDT (te e) = Some t /\ s1_lo <= t < s1_hi) /\
  (v_s1e r = None -> forall e t, In e s -> kDT (te e) = Some t -> ~ s1_lo <= t < s1_hi).
(** the lifetime: minus the mean of the exponential fitted to the rows of the region, nothing when the fit raises or some number is missing *)
Definition lifetime_of (fit_expo : list Q -> list Q -> val -> result (Q * Q * (val * val))) (inside : krevent -> Prop) (s : list tevent) (r : tevol) : Prop :=
  exists region, (forall e, In e region <-> In e (map te s) /\ inside e) /\
  ((exists dts s2es seed c mean uc um, map kDT region = map Some dts /\ map kS2e region = map Some s2es /\ fit_expo dts s2es seed = Ok (c, mean, (uc, um)) /\
      v_e0 r = Some c /\ v_e0u r = uc /\ v_lt r = Some (- mean) /\ v_ltu r = um) \/
   ((In None (map kDT region) \/ In None (map kS2e region) \/ exists dts s2es seed e, map kDT region = map Some dts /\ map kS2e region = map Some s2es /\ fit_expo dts s2es seed = Err e) /\
      v_e0 r = None /\ v_e0u r = None /\ v_lt r = None /\ v_ltu r = None)).
(** the number of values of each bin; the last bin has its upper edge too *)
Definition histogram_of (edges data : list Q) (y : list nat) : Prop :=
  List.length y = (List.length edges - 1)%nat /\ forall k, (k < List.length y)%nat -> how_many (fun x => nth k edges 0 <= x /\ (x < nth (S k) edges 0 \/ (S k = List.length y /\ x == nth (S k) edges 0))) data (nth k y 0%nat).
(** [q] is the centre of the gaussian fitted to the histogram of the numbers of [ec], started from the middle and the top of the histogram *)
Definition gauss_centre (root2pi : Q) (fit_gauss : list Q -> list nat -> Q * Q * Q -> option (list Q) -> result ((Q * Q * Q) * (val * val * val) * val)) (edges : list Q) (ec : list val) (q : Q) : Prop :=
  exists x y top mid sigma a s errors chi2,
    List.length x = List.length y /\ (forall k, (k < List.length x)%nat -> nth k x 0 == (nth k edges 0 + nth (S k) edges 0) / 2) /\   histogram_of edges (numbers ec) y /\ is_median x mid /\ In top y /\ (forall n, In n y -> (n <= top)%nat) /\   fit_gauss x y (qn top * root2pi * ((2 # 100) * mid), mid, (2 # 100) * mid) sigma = Ok (a, q, s, errors, chi2) /\   ~ a == qn top * root2pi * ((2 # 100) * mid) /\ ~ q == mid /\ ~ s == (2 # 100) * mid.
(** an energy: the centre of the gaussian, or the median if the fit is not possible and there are five rows *)
Definition energy_of (centre : Q -> Prop) (ec : list val) (m : val) : Prop :=
  (exists q, m = Some q /\ centre q) \/
  ((5 <= List.length ec)%nat /\ ignoring_nan is_median ec m) \/ ((List.length ec < 5)%nat /\ m = None).
