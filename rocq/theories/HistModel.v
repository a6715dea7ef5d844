(** Model of the spectra of the calibration cities: bin_waveforms of calib/calib_functions.py, waveform_binner of cities/components.py and
    the histograms accumulated by cities/berenice.py, cities/phyllis.py and cities/trude.py *)
From Verif Require Import Base Arrays PeaksModel CalibModel BuffersModel.
Local Open Scope nat_scope.

(** numpy.histogram with an array of edges: cumulative counts from the sorted samples (searchsorted 'left' at every edge but the last one,
    'right' there) and their differences. With decreasing edges it raises; edges that never decrease make the differences natural numbers *)
Fixpoint cumulative_counts (edges : list Q) (l : list Q) : list nat :=
  match edges with
  | [] => []
  | [e] => [length (filter (fun x => Qle_bool x e) l)]
  | e :: edges => length (filter (fun x => Qltb x e) l) :: cumulative_counts edges l
  end.
(** for calib_functions.py 20-27: bin_waveforms *)
Fixpoint differences (l : list nat) : list nat := match l with a :: ((b :: _) as r) => (b - a) :: differences r | _ => [] end.
(** for calib_functions.py 20-27: bin_waveforms *)
Fixpoint decreasing (l : list Q) : bool := match l with a :: ((b :: _) as r) => Qltb b a || decreasing r | _ => false end.
(** for calib_functions.py 20-27: bin_waveforms *)
Definition np_histogram (l edges : list Q) : result (list nat) :=
  if decreasing edges then Err ValueError else
  match edges, l with
  | [], _ :: _ => Err IndexError
  | _, _ => Ok (differences (cumulative_counts edges l))
  end.
(** calib_functions.py 20-27: bin_waveforms; numpy.apply_along_axis raises when there are no rows *)
Definition bin_waveforms (wfs : list (list Q)) (bins : list Q) : result (list (list nat)) :=
  match wfs with [] => Err ValueError | _ => rmap (fun wf => np_histogram wf bins) wfs end.
(** operator.add of two arrays of histograms of the same shape. Broadcasting of other shapes is not modelled. *)
Definition same_shape (a b : list (list nat)) : bool := (length a =? length b) && forallb (fun p => length (fst p) =? length (snd p)) (combine a b).
(** for berenice.py 72-77, 96-98 *)
Definition add_histograms (a b : list (list nat)) : result (list (list nat)) :=
  if same_shape a b then Ok (map2 (map2 Nat.add) a b) else Err NotModelled.
(** trude.py 79-84, berenice.py 63-66, phyllis.py: the edges, and numpy.zeros((nsipm, len(bin_centres))) *)
Definition bin_edges (min_bin max_bin bin_width : Q) : list Q := arange min_bin max_bin bin_width.
(** for trude.py 95-101, 119-120 *)
Definition zeros (n : nat) (edges : list Q) : list (list nat) := repeat (repeat 0 (length edges - 1)) n.
(** berenice.py 72-77, 96-98: histograms of the samples of each event, added to the accumulated ones *)
Fixpoint accumulate (edges : list Q) (acc : list (list nat)) (events : list (list (list Q))) : result (list (list nat)) :=
  match events with
  | [] => Ok acc
  | wfs :: events => rbind (bin_waveforms wfs edges) (fun h => rbind (add_histograms acc h) (fun acc => accumulate edges acc events))
  end.
(** for trude.py 95-101, 119-120 *)
Definition spectrum (n : nat) (edges : list Q) (events : list (list (list Q))) : result (list (list nat)) := accumulate edges (zeros n edges) events.
(** trude.py 95-101, 119-120 and phyllis.py: the same with the integrals of the waveforms between the limits *)
Definition integral_spectrum (n : nat) (edges : list Q) (limits : list Z) (events : list mat) : result (list (list nat)) :=
  rbind (rmap (fun m => waveform_integrator m limits) events) (spectrum n edges).
