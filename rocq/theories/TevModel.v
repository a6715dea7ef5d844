(** Model of the time evolution of a krypton map: icaros/krmap_functions.py 29-52 and 456-693 (gauss_seed, quick_gauss_fit, get_time_evol_single_slice, get_time_evol)
    and icaros/lifetime_vdrift_functions.py 53-88 (compute_drift_v) *)
From Verif Require Import Base Arrays PeaksModel WfmModel DbModel CorrModel KmapModel.
Local Open Scope Q_scope.

(** columns of which only the mean and the standard deviation are used; nan is [None] *)
Inductive column := S1w | S1h | S2h | S2w | S2q | Nsipm | Xrms | Yrms | Zrms.
(** for krmap_functions.py 492-648: get_time_evol_single_slice *)
Definition columns : list column := [S1w; S1h; S2h; S2w; S2q; Nsipm; Xrms; Yrms; Zrms].
(** a row of the corrected dst *)
Record tevent := { te : krevent; te_event : Z; te_S1e : Q; te_Ec : val; te_Ec2 : val; te_col : column -> val }.

(** a row of the table. A number that is not finite (nan or infinite) is [None] *)
Record tevol := { v_run : Z; v_ts : Q; v_nevents : nat; v_neventsu : Q; v_rate : val; v_rateu : val; v_s2e : val; v_s2eu : val;
  v_ec : val; v_ecu : val; v_ec2 : val; v_ec2u : val; v_chi2 : val; v_chi2_self : val; v_e0 : val; v_e0u : val; v_lt : val; v_ltu : val; v_dv : val; v_dvu : val;
  v_resol : val; v_s1e : val; v_s1eu : val; v_means : list (column * (val * val)) }.

(** np.histogram with the edges of the bins: the last bin has its upper edge too *)
Fixpoint hist (edges : list Q) (data : list Q) : list nat :=
  match edges with
  | a :: ((b :: t) as r) => length (filter (fun x => Qle_bool a x && (Qltb x b || (match t with [] => true | _ => false end && Qeqb x b)))%bool data) :: hist r data
  | _ => []
  end.
(** shift_to_bin_centers *)
Fixpoint centres (edges : list Q) : list Q := match edges with a :: ((b :: _) as r) => a + (1 # 2) * (b - a) :: centres r | _ => [] end.
(** for krmap_functions.py 456-489: quick_gauss_fit *)
Fixpoint increasing (l : list Q) : bool := match l with a :: ((b :: _) as r) => Qle_bool a b && increasing r | _ => true end.
(** for krmap_functions.py 29-52: gauss_seed *)
Definition max_nat (l : list nat) : result nat := match l with [] => Err ValueError | x :: l => Ok (fold_left Nat.max l x) end.
(** for lifetime_vdrift_functions.py 53-88: compute_drift_v *)
Definition min_nat (l : list nat) : result nat := match l with [] => Err ValueError | x :: l => Ok (fold_left Nat.min l x) end.
(** for lifetime_vdrift_functions.py 53-88: compute_drift_v *)
Definition vdiv (a b : val) : val := match a, b with Some x, Some y => if Qeqb y 0 then None else Some (x / y) | _, _ => None end.

Section Evolution.
  (** square roots, sqrt(2 pi), sqrt(8 log 2), the standard deviation of the rows of a column (with n - 1, of pandas) and of an array (with n, of numpy) *)
  Variable sqrt : Q -> Q.
  Variables root2pi fwhm : Q.
  Variables std std0 : list Q -> val.
  (** the three fits: abscissas, ordinates, seed and uncertainties, to values and errors *)
  Variable fit_expo : list Q -> list Q -> val -> result (Q * Q * (val * val)).
  Variable fit_gauss : list Q -> list nat -> Q * Q * Q -> option (list Q) -> result ((Q * Q * Q) * (val * val * val) * val).
  Variable fit_sigmoid : list Q -> list nat -> nat * Q * Q * nat -> list Q -> result (Q * val).

  (** core/stat_functions.py 17-24: poisson_sigma *)
  Definition poisson_sigma (y : list nat) : list Q := map (fun n => if (n =? 0)%nat then 3 else sqrt (qn n)) y.
  (** krmap_functions.py 29-52: gauss_seed *)
  Definition gauss_seed (x : list Q) (y : list nat) : result (Q * Q * Q) :=
    rbind (max_nat y) (fun m => let s := (2 # 100) * median x in Ok (qn m * root2pi * s, median x, s)).
  (** krmap_functions.py 456-489: quick_gauss_fit, with the edges of the bins. Values that are not numbers are not in the histogram. *)
  Definition quick_gauss_fit (data : list val) (bins : list Q) (error : bool) : result ((Q * Q * Q) * (val * val * val) * val) :=
    if negb (increasing bins) then Err ValueError else
    let y := hist bins (present data) in
    let x := centres bins in
    rbind (gauss_seed x y) (fun seed =>
    rbind (fit_gauss x y seed (if error then Some (poisson_sigma y) else None)) (fun f =>
    let '(a, m, s, _, _) := f in let '(a0, m0, s0) := seed in
    if Qeqb a a0 || Qeqb m m0 || Qeqb s s0 then Err (Other 70) else Ok f)).
  (** lifetime_vdrift_functions.py 53-88: compute_drift_v without a seed; [Other 70] is RuntimeError *)
  Definition compute_drift_v (dt : list val) (bins : list Q) : result (val * val) :=
    if negb (increasing bins) then Err ValueError else
    let y := hist bins (present dt) in
    let x := centres bins in
    rbind (max_nat y) (fun mx => rbind (min_nat y) (fun mn =>
    match fit_sigmoid x y (mx, meanQ bins, 1 # 2, mn) (poisson_sigma y) with
    | Ok (p, e) => let dv := vdiv (Some ((118737 # 100) + 10 / 2)) (Some p) in Ok (dv, vdiv (vmap (fun d => d) (match dv, e with Some d, Some e => Some (d * e) | _, _ => None end)) (Some p))
    | Err (Other 70) => Ok (None, None)
    | Err e => Err e
    end)).
  (** the energy in a slice: the fit or, when it raises, the median *)
  Definition energy (ec : list val) (bins : list Q) (error : bool) : val * val * val * val * val :=
    match quick_gauss_fit ec bins error with
    | Ok (_, m, s, (_, um, us), chi2) => (Some m, Some s, um, us, chi2)
    | Err _ => let q := present ec in
      let s := match q with [] => None | _ => if (length ec <? 5)%nat then Some ((4 # 100) / (235 # 100) * median q) else std q end in
      (match q with [] => None | _ => if (length ec <? 5)%nat then None else Some (median q) end, s, vmap (fun s => s / sqrt (qn (length ec))) s, None, None)
    end.
  (** krmap_functions.py 492-648: get_time_evol_single_slice. A slice is not empty. u_R is left out. *)
  Definition get_time_evol_single_slice (run : Z) (x0 y0 : Q) (shape : region_shape) (size : Q) (dtbins : list Q) (s1_lo s1_hi : Q) (bins : list Q) (error : bool) (df : list tevent) : result tevol :=
    let nev := length (nodup Z.eq_dec (map te_event df)) in
    let sqrtn := sqrt (qn nev) in
    let mean_std (l : list val) : val * val := (nanmean l, vmap (fun s => s / sqrtn) (std (present l))) in
    let '(m, u) := mean_std (map (fun e => kS2e (te e)) df) in
    rbind (select_lifetime_region (map te df) x0 y0 shape size) (fun region =>
    let '(e0, e0u, lt, ltu) :=
      match forallb (fun e => match kDT e, kS2e e with Some _, Some _ => true | _, _ => false end) region,
            fit_expo (present (map kDT region)) (present (map kS2e region)) (match present (map kS2e region) with [] => None | q => Some (median q) end) with
      | true, Ok (c, mean, (uc, um)) => (Some c, uc, Some (- mean), um)
      | _, _ => (None, None, None, None)
      end in
    rbind (compute_drift_v (map kDT region) dtbins) (fun dvs =>
    let '(ec, _, ecu, _, chi2) := energy (map te_Ec df) bins error in
    let '(ec2, s2, ec2u, _, chi2_self) := energy (map te_Ec2 df) bins error in
    let sel := map te_S1e (filter (fun e => in_range_val (kDT (te e)) s1_lo s1_hi) df) in
    match min_time (map te df), max_time (map te df) with
    | Some t0, Some t1 =>
      Ok {| v_run := run; v_ts := t0; v_nevents := nev; v_neventsu := sqrtn; v_rate := vdiv (Some (qn nev)) (Some (t1 - t0)); v_rateu := vdiv (Some sqrtn) (Some (t1 - t0));
            v_s2e := m; v_s2eu := u; v_ec := ec; v_ecu := ecu; v_ec2 := ec2; v_ec2u := ec2u; v_chi2 := chi2; v_chi2_self := chi2_self;
            v_e0 := e0; v_e0u := e0u; v_lt := lt; v_ltu := ltu; v_dv := fst dvs; v_dvu := snd dvs;
            v_resol := vmap (fun r => r * fwhm * 100) (vdiv s2 ec2);
            v_s1e := match sel with [] => None | _ => Some (meanQ sel) end; v_s1eu := vmap (fun s => s / sqrt (qn (length df))) (std0 sel);
            v_means := map (fun c => (c, mean_std (map (fun e => te_col e c) df))) columns |}
    | _, _ => Err NotModelled
    end)).
  (** krmap_functions.py 651-693: get_time_evol: KmapModel.time_slices over the rows with all their columns; a table without rows is not modelled *)
  Definition slices (len : Q) (df : list tevent) : list (list tevent) :=
    match min_time (map te df), max_time (map te df) with
    | Some a, Some b =>
      let bins := arange a (b + len) len in
      map (fun n => filter (fun e => (digitize (ktime (te e)) bins =? n)%nat) df) (sort_by Nat.leb (nodup Nat.eq_dec (map (fun e => digitize (ktime (te e)) bins) df)))
    | _, _ => []
    end.
  (** krmap_functions.py 651-693: get_time_evol *)
  Definition get_time_evol (len : Q) (run : Z) (x0 y0 : Q) (shape : region_shape) (size : Q) (dtbins : list Q) (s1_lo s1_hi : Q) (bins : list Q) (error : bool) (df : list tevent) : result (list tevol) :=
    match df with [] => Err NotModelled | _ => rmap (get_time_evol_single_slice run x0 y0 shape size dtbins s1_lo s1_hi bins error) (slices len df) end.
End Evolution.
