(** Model of the image given to the deconvolution: deconvolution_input, interpolate_signal and find_nearest of reco/deconv_functions.py
    (239-341), the grid of cities/beersheba.py 158-159. Exact arithmetic; the interpolation itself (scipy's griddata) is a parameter. *)
From Verif Require Import Base Arrays PeaksModel BuffersModel S1Model LtModel.
From Verif Require CorrModel.
Local Open Scope Q_scope.

(** types/symbols.py InterpolationMethod *)
Inductive inter_method := nearest | linear | cubic | nointerpolation.
(** np.finfo(np.float32).eps *)
Definition eps32 : Q := 1 # 8388608.

(** deconv_functions.py 269-271: an empty coordinate has no minimum *)
Definition range_of (cs : list Q * Q) : result (Q * Q) :=
  match fst cs with
  | [] => Err ValueError
  | c :: l => Ok (fold_left Qmin l c - (3 # 2) * snd cs, fold_left Qmax l c + (3 # 2) * snd cs + eps32)
  end.
(** for deconv_functions.py 265-286: deconvolution_input *)
Definition ranges (data : list (list Q)) (sample_width : list Q) : result (list (Q * Q)) := rmap range_of (combine data sample_width).

(** np.meshgrid(..., indexing = 'ij') and flatten: all the combinations, the last dimension changes first *)
Fixpoint product {A} (axes : list (list A)) : list (list A) :=
  match axes with
  | [] => [[]]
  | a :: axes => flat_map (fun x => map (cons x) (product axes)) a
  end.
(** for deconv_functions.py 265-286: deconvolution_input *)
Definition cells (edges : list (list Q)) : list (list nat) := product (map (fun e => seq 0 (length e - 1)) edges).
(** shift_to_bin_centers (core_functions.py 302-306) *)
Definition bin_centers (e : list Q) : list Q := map (fun i => nth i e 0 + (nth (S i) e 0 - nth i e 0) * (1 # 2)) (seq 0 (length e - 1)).

(** np.histogramdd(data, bins = edges, weights = weight)[0], flattened. Each dimension as in np.histogram (S1Model.in_edges). Edges that
    decrease, coordinates of different lengths and another number of dimensions are refused. *)
Fixpoint never_decreases (l : list Q) : bool := match l with a :: ((b :: _) as r) => Qle_bool a b && never_decreases r | _ => true end.
(** for deconv_functions.py 265-286: deconvolution_input *)
Definition in_cell (data edges : list (list Q)) (cell : list nat) (k : nat) : bool :=
  forallb (fun d => in_edges (nth d edges []) (nth d cell 0%nat) (nth k (nth d data []) 0)) (seq 0 (length data)).
(** for deconv_functions.py 265-286: deconvolution_input *)
Definition histogramdd (data edges : list (list Q)) (weight : list Q) : result (list Q) :=
  if negb (length edges =? length data)%nat || negb (forallb (fun c => (length c =? length weight)%nat) data) || negb (forallb never_decreases edges) then Err ValueError
  else Ok (map (fun cell => sumF (fun k => if in_cell data edges cell k then nth k weight 0 else 0) (seq 0 (length weight))) (cells edges)).

(** in_range (core_functions.py 55-86) on a grid *)
Definition within_range (r : Q * Q) (grid : list Q) : list Q := filter (fun g => CorrModel.in_range g (fst r) (snd r)) grid.

Section Interpolation.
  (** scipy.interpolate.griddata(points, values, new_points, method): [None] is NaN *)
  Variable griddata : inter_method -> list (list Q) -> list Q -> list Q -> option Q.
  (** deconv_functions.py 291-321: interpolate_signal; nan_to_num, then np.clip from 0 *)
  Definition interpolate_signal (Hs : list Q) (points : list (list Q)) (rs : list (Q * Q)) (det_grid : list (list Q)) (m : inter_method) : list Q * list (list Q) :=
    let new_points := product (map (fun rg => within_range (fst rg) (snd rg)) (combine rs det_grid)) in
    (map (fun p => Qmax 0 (match griddata m points Hs p with Some v => v | None => 0 end)) new_points, new_points).
  (** deconv_functions.py 265-286: deconvolution_input. np.arange with a step of zero: ZeroDivisionError *)
  Definition deconvolution_input (sample_width : list Q) (det_grid : list (list Q)) (m : inter_method) (data : list (list Q)) (weight : list Q) : result (list Q * list (list Q)) :=
    rbind (ranges data sample_width) (fun rs =>
    rbind (match m with
           | nointerpolation => rmap (fun rg => binedges_from_bincenters (within_range (fst rg) (snd rg)) None) (combine rs det_grid)
           | _ => rmap (fun rs => if Qeqb (snd rs) 0 then Err ZeroDivisionError else Ok (arange (fst (fst rs)) (snd (fst rs)) (snd rs))) (combine rs sample_width)
           end) (fun edges =>
    rbind (histogramdd data edges weight) (fun Hs =>
    let points := product (map bin_centers edges) in
    match m with
    | nointerpolation => Ok (Hs, points)
    | _ => Ok (interpolate_signal Hs points rs det_grid m)
    end))).
End Interpolation.

(** deconv_functions.py 324-341: find_nearest; the first of the nearest ones, argmin of an empty array raises *)
Fixpoint argmin (l : list Q) : nat :=
  match l with
  | [] => 0
  | [_] => 0
  | x :: l' => let k := argmin l' in if Qle_bool x (nth k l' 0) then 0%nat else S k
  end.
(** with deconv_functions.py 324-341: find_nearest *)
Definition find_nearest (array : list Q) (value : Q) : result Q :=
  match array with [] => Err ValueError | _ => Ok (nth (argmin (map (fun a => Qabs.Qabs (a - value)) array)) array 0) end.
(** beersheba.py 158-159: the grid of one dimension, from the positions of the sensors and the size of the bins *)
Definition grid_of (positions : list Q) (bs : Q) : list Q :=
  match positions with [] => [] | p :: l => arange (fold_left Qmin l p + bs / 2) (fold_left Qmax l p - bs / 2 + eps32) bs end.
