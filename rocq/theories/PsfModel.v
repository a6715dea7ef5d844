(** Model of reco/psf_functions.py and of the PSF accumulation of cities/eutropia.py *)
From Verif Require Import Base PeaksModel DbModel CorrModel.
Local Open Scope Q_scope.

(** ---- keys of groupby: several numeric columns ---- *)
Notation key := (list Q).
(** for eutropia.py 208-216 *)
Fixpoint key_eqb (a b : key) : bool := match a, b with [], [] => true | x :: a, y :: b => Qeqb x y && key_eqb a b | _, _ => false end.
(** the lexicographic order, in which groupby returns its groups *)
Fixpoint key_leb (a b : key) : bool := match a, b with [], _ => true | _, [] => false | x :: a, y :: b => Qltb x y || (Qeqb x y && key_leb a b) end.
(** the distinct keys; of equal keys the first is kept *)
Fixpoint distinct_keys (l : list key) : list key := match l with [] => [] | k :: l => k :: filter (fun k' => negb (key_eqb k k')) (distinct_keys l) end.
(** for eutropia.py 203-217: combine_psfs *)
Definition group_keys (l : list key) : list key := sort_by key_leb (distinct_keys l).

(** ---- eutropia.py 203-217: combine_psfs ---- *)
(** a row of a PSF table: the columns xr yr zr x y z, factor and nevt *)
Record prow := { pkey : key; factor : Q; nevt : nat }.
(** eutropia.py 208-216: the columns factor and nevt are summed per key after factor is multiplied by nevt, and factor is divided by nevt;
    numpy's nan of 0/0 becomes 0, and with nevt = 0 all summands are products with 0, so that 0/0 is the only case *)
Definition combined (rows : list prow) (k : key) : prow :=
  let same := filter (fun r => key_eqb k (pkey r)) rows in
  let n := sumN (map nevt same) in
  let w := sumF (fun r => factor r * qn (nevt r)) same in
  {| pkey := k; factor := if (n =? 0)%nat then 0 else w / qn n; nevt := n |}.
(** eutropia.py 203-217: combine_psfs *)
Definition combine_psfs (acc : option (list prow)) (new : list prow) : option (list prow) :=
  match acc with
  | None => Some new
  | Some acc => Some (map (combined (acc ++ new)) (group_keys (map pkey (acc ++ new))))
  end.

(** ---- psf_functions.py 10-39: create_psf in two dimensions ---- *)
(** np.histogramdd: the bin of a value; the last bin includes its upper edge. Edges increase. *)
Definition hist_bin (edges : list Q) (x : Q) : option nat :=
  let n := digitize x edges in
  let n := if Qeqb x (last edges 0) then (n - 1)%nat else n in
  if ((1 <=? n) && (n <? length edges))%nat then Some (n - 1)%nat else None.
(** with psf_functions.py 10-39: create_psf *)
Definition bin_is (edges : list Q) (i : nat) (x : Q) : bool := match hist_bin edges x with Some j => (i =? j)%nat | None => false end.
(** a row of the processed hits: RelX, RelY, Xpeak, Ypeak, NormQ *)
Record phit := { relx : Q; rely : Q; xpeak : Q; ypeak : Q; normq : Q }.
(** the values of bin (i, j): mean charge and entries; 0/0 is nan and nan_to_num turns it into 0 *)
Definition psf_bin (xe ye : list Q) (rows : list phit) (ij : nat * nat) : Q * nat :=
  let inside := filter (fun h => bin_is xe (fst ij) (relx h) && bin_is ye (snd ij) (rely h)) rows in
  let n := length inside in
  ((if (n =? 0)%nat then 0 else sumF normq inside / qn n), n).
(** for eutropia.py 175-200: psf_builder *)
Definition bins (xe ye : list Q) : list (nat * nat) := list_prod (seq 0 (length xe - 1)) (seq 0 (length ye - 1)).
(** eutropia.py 175-200: psf_builder and df_builder; bins in C order, centres by shift_to_bin_centers, zr = 0 *)
Definition psf_frame (xe ye : list Q) (x y z : Q) (rows : list phit) : list prow :=
  map (fun ij => let '(f, n) := psf_bin xe ye rows ij in
    {| pkey := [nth (fst ij) (shift_to_bin_centers xe) 0; nth (snd ij) (shift_to_bin_centers ye) 0; 0; x; y; z]; factor := f; nevt := n |}) (bins xe ye).

(** ---- psf_functions.py 62-128: processing of the hits ---- *)
(** a hit: the columns event, time and npeak as one key, and X, Y, Z, Q, Xpeak, Ypeak *)
Record hit := { peak : key; hX : Q; hY : Q; hZ : Q; hQ : Q; hXpeak : Q; hYpeak : Q }.
(** a row of [combined]: the peak columns are missing in the rows added for sensors *)
Record crow := { cX : Q; cY : Q; cZ : Q; cQ : Q; cpeak : option (Q * Q) }.
(** for psf_functions.py 79-89 *)
Definition cpos (c : crow) : key := [cX c; cY c; cZ c].
(** for psf_functions.py 79-89 *)
Definition minQ' (l : list Q) : Q := match l with [] => 0 | x :: l => fold_left (fun a b => if Qltb b a then b else a) l x end.
(** ffill then bfill of a column *)
Fixpoint ffill {A} (last : option A) (l : list (option A)) : list (option A) :=
  match l with [] => [] | Some a :: l => Some a :: ffill (Some a) l | None :: l => last :: ffill last l end.
(** for psf_functions.py 79-89 *)
Definition bfill {A} (l : list (option A)) : list (option A) := rev (ffill None (rev l)).
(** groupby(...).agg("first"): the first value of each column that is not missing *)
Fixpoint first_some {A} (l : list (option A)) : option A := match l with [] => None | Some a :: _ => Some a | None :: l => first_some l end.
(** for psf_functions.py 79-89 *)
Definition first_row (l : list crow) (k : key) : list crow :=
  match filter (fun c => key_eqb k (cpos c)) l with
  | [] => []
  | c :: l => [{| cX := cX c; cY := cY c; cZ := cZ c; cQ := cQ c; cpeak := first_some (map cpeak (c :: l)) |}]
  end.
(** for psf_functions.py 79-89 *)
Definition set_peak (cp : crow * option (Q * Q)) : crow := let '(c, p) := cp in {| cX := cX c; cY := cY c; cZ := cZ c; cQ := cQ c; cpeak := p |}.
Section Process.
  (** the two ranges and the positions of the sensors of the database *)
  Variables (x0 x1 y0 y1 : Q) (sensors : list (Q * Q)).
  (** psf_functions.py 79-89; the group has at least one row and its columns have no NaN; E and Ec are not modelled *)
  Definition with_empty_sensors (df : list hit) : list crow :=
    match df with
    | [] => []
    | h :: _ =>
      let dx := (x1 - x0) / 2 in
      let dy := (y1 - y0) / 2 in
      let sel := filter (fun s => in_range (fst s) (hXpeak h - dx) (hXpeak h + dx) && in_range (snd s) (hYpeak h - dy) (hYpeak h + dy)) sensors in
      let rows := map (fun h => {| cX := hX h; cY := hY h; cZ := hZ h; cQ := hQ h; cpeak := Some (hXpeak h, hYpeak h) |}) df
                  ++ map (fun s => {| cX := fst s; cY := snd s; cZ := minQ' (map hZ df); cQ := 0; cpeak := None |}) sel in
      let rows := flat_map (first_row rows) (group_keys (map cpos rows)) in
      map set_peak (combine rows (bfill (ffill None (map cpeak rows))))
    end.
  (** psf_functions.py 91, 121-125: NormQ, RelX, RelY; a total charge of 0 (NormQ is NaN or infinite) is not modelled *)
  Definition process_peak (df : list hit) : result (list phit) :=
    let rows := with_empty_sensors df in
    let total := sumF cQ rows in
    if Qeqb total 0 then Err NotModelled else
    rmap (fun c => match cpeak c with
                   | Some (xp, yp) => Ok {| relx := cX c - xp; rely := cY c - yp; xpeak := xp; ypeak := yp; normq := cQ c / total |}
                   | None => Err NotModelled
                   end) rows.
  (** psf_functions.py 96-128: hdst_psf_processing; the groups in the order of their keys *)
  Definition process_hits (df : list hit) : result (list phit) :=
    rbind (rmap (fun k => process_peak (filter (fun h => key_eqb k (peak h)) df)) (group_keys (map peak df))) (fun ls => Ok (concat ls)).
End Process.

(** ---- eutropia.py 58-172: the city; the run information is written elsewhere ---- *)
Fixpoint intervals (l : list Q) : list (Q * Q) := match l with a :: ((b :: _) as l') => (a, b) :: intervals l' | _ => [] end.
Section City.
  (** rounding of the centres of the sectors to two decimals *)
  Variable round2 : Q -> Q.
  Variables (x0 x1 y0 y1 : Q) (sensors : list (Q * Q)).
  Variables (zbins xsectors ysectors xe ye : list Q).
  (** eutropia.py 139-149: z_splitter *)
  Definition split_in_z (dst : list hit) : list (Q * list hit) :=
    flat_map (fun ab => match filter (fun h => in_range (hZ h) (fst ab) (snd ab)) dst with [] => [] | sel => [((fst ab + snd ab) / 2, sel)] end) (intervals zbins).
  (** eutropia.py 157-172: xy_splitter *)
  Definition split_in_xy (dst : list phit) : list (Q * Q * list phit) :=
    flat_map (fun xx => flat_map (fun yy =>
      match filter (fun h => in_range (xpeak h) (fst xx) (snd xx) && in_range (ypeak h) (fst yy) (snd yy)) dst with
      | [] => []
      | sel => [(round2 ((fst xx + snd xx) / 2), round2 ((fst yy + snd yy) / 2), sel)]
      end) (intervals ysectors)) (intervals xsectors).
  (** the PSF tables that one input file contributes *)
  Definition psfs_of_file (dst : list hit) : result (list (list prow)) :=
    rbind (rmap (fun zd => rbind (process_hits x0 x1 y0 y1 sensors (snd zd)) (fun rows =>
             Ok (map (fun xyr => let '(x, y, sel) := xyr in psf_frame xe ye x y (fst zd) sel) (split_in_xy rows)))) (split_in_z dst))
          (fun ls => Ok (concat ls)).
  (** eutropia.py 109-136: reduce over all files; [None]: there was no table to write *)
  Definition eutropia (files : list (list hit)) : result (option (list prow)) :=
    rbind (rmap psfs_of_file files) (fun frames => Ok (fold_left combine_psfs (concat frames) None)).
End City.
