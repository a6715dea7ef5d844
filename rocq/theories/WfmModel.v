(** Model of invisible_cities/reco/wfm_functions.py.
    Waveforms are lists of rationals, one row per sensor. *)
From Verif Require Import Base PeaksModel Arrays.
Local Open Scope Q_scope.

(** wfm_functions.py 55-80: suppress_wf. [padding] is a non-negative integer;
    np.clip(indices - padding, 0, None) is truncated subtraction *)
Definition below_thr (wf : list Q) (thr : Q) : list bool := map (fun x => Qle_bool x thr) wf.
(** for wfm_functions.py 55-80: suppress_wf *)
Definition pad_signal (padding : nat) (below : list bool) : list bool :=
  if (0 <? padding)%nat then
    fold_left (fun b i => assign_range (i - padding) (Nat.min (i + padding) (length below - 1)) false b)
              (np_where negb below) below
  else below.
(** wfm_functions.py 55-80: suppress_wf *)
Definition suppress_wf (wf : list Q) (thr : Q) (padding : nat) : list Q :=
  map2 (fun (b : bool) x => if b then 0 else x) (pad_signal padding (below_thr wf thr)) wf.

(** wfm_functions.py 83-104: noise_suppression with one threshold and one padding per
    waveform (the scalar forms are expanded in lines 99-102). map over three sequences
    stops with the shortest one *)
Fixpoint map3 {A B C D} (f : A -> B -> C -> D) (l : list A) (m : list B) (n : list C) : list D :=
  match l, m, n with
  | a :: l, b :: m, c :: n => f a b c :: map3 f l m n
  | _, _, _ => []
  end.
(** wfm_functions.py 83-104: noise_suppression *)
Definition noise_suppression (wfs : list (list Q)) (thrs : list Q) (paddings : list nat) : list (list Q) :=
  map3 suppress_wf wfs thrs paddings.

(** wfm_functions.py 140-159: zero_wfs_below_threshold, with one threshold per sensor *)
Definition zero_wfs_below_threshold (m : mat) (thrs : list Q) : result mat :=
  if (length (rows m) =? length thrs)%nat
  then Ok {| cols := cols m; rows := map2 (fun wf thr => map (fun x => if Qltb thr x then x else 0) wf) (rows m) thrs |}
  else Err ValueError.

(** wfm_functions.py 182-202: charge_threshold_method *)
Definition charge_threshold_method (m : mat) (thrs : list Q) (integration_thr : Q) : result (list nat * mat) :=
  rbind (zero_wfs_below_threshold m thrs) (fun z => Ok (select_wfs_above_time_integrated_thr z integration_thr)).

(** wfm_functions.py 205-224: top_n_method. numpy's argsort is given as [perm] because
    its order among equal charges is not specified. l[-n:] for n = 0 is the whole list. *)
Definition last_n {A} (n : nat) (l : list A) : list A :=
  if (n =? 0)%nat then l else skipn (length l - n) l.
(** wfm_functions.py 205-224: top_n_method *)
Definition top_n_method (argsort : list Q -> list nat) (wfs : list (list Q)) (n : nat) : list bool :=
  let charges := map sumQ wfs in
  fold_left (fun m i => upd i true m) (last_n n (argsort charges)) (map (fun _ => false) charges).

(** np.median *)
Fixpoint insertQ (x : Q) (l : list Q) : list Q :=
  match l with [] => [x] | y :: l' => if Qle_bool x y then x :: l else y :: insertQ x l' end.
(** for wfm_functions.py 162-179: median_std_method *)
Fixpoint sortQ (l : list Q) : list Q := match l with [] => [] | x :: l => insertQ x (sortQ l) end.
(** for wfm_functions.py 162-179: median_std_method *)
Definition median (l : list Q) : Q :=
  let s := sortQ l in let n := length l in
  if Nat.even n then (nth (n / 2 - 1) s 0 + nth (n / 2) s 0) / 2 else nth (n / 2) s 0.
(** for wfm_functions.py 162-179: median_std_method *)
Definition meanQ (l : list Q) : Q := sumQ l / inject_Z (Z.of_nat (length l)).
(** for wfm_functions.py 162-179: median_std_method *)
Definition variance (l : list Q) : Q := meanQ (map (fun x => (x - meanQ l) * (x - meanQ l)) l).

(** wfm_functions.py 162-179: median_std_method. [c >= median + nsigma * sqrt(variance)]
    is written without the square root, which is exact over the reals. *)
Definition above_sigma (c med nsigma var : Q) : bool :=
  let d := c - med in
  if Qle_bool 0 nsigma then Qle_bool 0 d && Qle_bool (nsigma * nsigma * var) (d * d)
  else Qle_bool 0 d || Qle_bool (d * d) (nsigma * nsigma * var).
(** wfm_functions.py 162-179: median_std_method *)
Definition median_std_method (wfs : list (list Q)) (nsigma : Q) : list bool :=
  let charges := map sumQ wfs in
  map (fun c => above_sigma c (median charges) nsigma (variance charges)) charges.

(** distance < d and distance <= d, with the square root removed *)
Definition dist2 (p q : Q * Q) : Q := (fst p - fst q) * (fst p - fst q) + (snd p - snd q) * (snd p - snd q).
(** for wfm_functions.py 227-260: kill_isolated_sipms *)
Definition closer (d : Q) (p q : Q * Q) : bool := Qltb 0 d && Qltb (dist2 p q) (d * d).
(** for wfm_functions.py 263-292: apply_circular_padding *)
Definition within (d : Q) (p q : Q * Q) : bool := Qle_bool 0 d && Qle_bool (dist2 p q) (d * d).

(** wfm_functions.py 227-260: kill_isolated_sipms. The arrays have the same length *)
Definition origin : Q * Q := (0, 0).
(** for wfm_functions.py 227-260: kill_isolated_sipms *)
Definition n_neighbors (selected : list bool) (pos : list (Q * Q)) (d : Q) (i : nat) : nat :=
  count (fun sp => fst sp && closer d (snd sp) (nth i pos origin)) (combine selected pos).
(** wfm_functions.py 227-260: kill_isolated_sipms *)
Definition kill_isolated_sipms (selected : list bool) (pos : list (Q * Q)) (d : Q) : list bool :=
  fold_left (fun m i => if (n_neighbors selected pos d i <=? 1)%nat then upd i false m else m)
            (np_where (fun b => b) selected) selected.

(** wfm_functions.py 263-292: apply_circular_padding *)
Definition apply_circular_padding (selected : list bool) (pos : list (Q * Q)) (r : Q) : list bool :=
  fold_left (fun m i => map2 orb m (map (fun p => within r p (nth i pos origin)) pos))
            (np_where (fun b => b) selected) (map (fun _ => false) selected).

(** wfm_functions.py 295-349: spatial_selection_method. The enumeration of methods
    (types/symbols.py 163-164) has a single member, so looking up the second one raises
    AttributeError. *)
Inductive selection_method := MedianStd (nsigma : Q) | AnyOtherMethod.
(** wfm_functions.py 295-349: spatial_selection_method *)
Definition spatial_selection_method (pos : list (Q * Q)) (method : selection_method) (d r : Q) (wfs : list (list Q))
  : result (list nat * list (list Q)) :=
  match method with
  | MedianStd nsigma =>
      let ids := np_where (fun b => b) (apply_circular_padding (kill_isolated_sipms (median_std_method wfs nsigma) pos d) pos r) in
      Ok (ids, map (fun i => nth i wfs []) ids)
  | AnyOtherMethod => Err AttributeError
  end.
