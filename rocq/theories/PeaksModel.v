(** Model of peak search and of the peak objects:
    invisible_cities/reco/peak_functions.py and invisible_cities/evm/pmaps.py *)
From Verif Require Import Base.
Local Open Scope nat_scope.

(** A 2-dim array: number of columns (samples) and rows (sensors).  The number of
    columns is explicit because numpy keeps it for arrays with no row. *)
Record mat := { cols : nat; rows : list (list Q) }.
(** for types/ic_types.py 59-76: minmax *)
Definition is_mat (m : mat) : Prop := Forall (fun r => length r = cols m) (rows m).

(** types/ic_types.py 59-76: minmax, closed interval.  The assertion min <= max of
    the constructor is not modelled. *)
Record minmax := { mn : Q; mx : Q }.
(** ic_types.py 75-76: contains *)
Definition contains (m : minmax) (x : Q) : bool := Qle_bool (mn m) x && Qle_bool x (mx m).

(** for peak_functions.py 41-46: select_peaks *)
Definition qn (n : nat) : Q := inject_Z (Z.of_nat n).

(** numpy: np.diff, np.where(p)[0], np.split(l, cuts) *)
Fixpoint diff (l : list nat) : list Z :=
  match l with
  | a :: (b :: _) as t => (Z.of_nat b - Z.of_nat a)%Z :: diff t
  | _ => []
  end.
(** for peak_functions.py 23-26: indices_and_wf_above_threshold *)
Fixpoint where_from {A} (i : nat) (p : A -> bool) (l : list A) : list nat :=
  match l with
  | [] => []
  | a :: l => if p a then i :: where_from (S i) p l else where_from (S i) p l
  end.
(** for peak_functions.py 23-26: indices_and_wf_above_threshold *)
Definition np_where {A} (p : A -> bool) (l : list A) : list nat := where_from 0 p l.
(** for peak_functions.py 36-38: split_in_peaks *)
Fixpoint split_from {A} (lo : nat) (l : list A) (cuts : list nat) : list (list A) :=
  match cuts with
  | [] => [slice lo (length l) l]
  | c :: cuts => slice lo c l :: split_from c l cuts
  end.
(** for peak_functions.py 36-38: split_in_peaks *)
Definition np_split {A} (l : list A) (cuts : list nat) : list (list A) := split_from 0 l cuts.

(** peak_functions.py 23-26: indices_and_wf_above_threshold (the indices) *)
Definition indices_above_threshold (wf : list Q) (thr : Q) : list nat :=
  np_where (fun x => Qltb thr x) wf.

(** peak_functions.py 29-33: select_wfs_above_time_integrated_thr *)
Definition select_wfs_above_time_integrated_thr (m : mat) (thr : Q) : list nat * mat :=
  (np_where (fun r => Qle_bool thr (sumQ r)) (rows m),
   {| cols := cols m; rows := filter (fun r => Qle_bool thr (sumQ r)) (rows m) |}).

(** peak_functions.py 36-38: split_in_peaks *)
Definition split_in_peaks (indices : list nat) (stride : Z) : list (list nat) :=
  np_split indices (map S (np_where (fun d => (stride <? d)%Z) (diff indices))).

(** indices[0], indices[-1]: IndexError on an empty array *)
Definition ends (indices : list nat) : result (nat * nat) :=
  match indices with
  | [] => Err IndexError
  | i :: l => Ok (i, last l i)
  end.

(** peak_functions.py 41-46: select_peaks *)
Definition is_valid (time length : minmax) (wid : Q) (indices : list nat) : result bool :=
  rbind (ends indices) (fun '(a, b) =>
  Ok (contains time (qn a * wid) && contains time (qn b * wid) && contains length (qn (b + 1 - a)))%Q).
(** for peak_functions.py 41-46: select_peaks *)
Fixpoint rfilter {A} (f : A -> result bool) (l : list A) : result (list A) :=
  match l with
  | [] => Ok []
  | a :: l => rbind (f a) (fun b => rbind (rfilter f l) (fun l => Ok (if b then a :: l else l)))
  end.
(** peak_functions.py 41-46: select_peaks *)
Definition select_peaks (peaks : list (list nat)) (time length : minmax) (wid : Q) : result (list (list nat)) :=
  rfilter (is_valid time length wid) peaks.

(** np.sum(m, axis=0), np.sum(m, axis=1), m[:, a:b] *)
Definition col_sum (m : mat) (j : nat) : Q := sumQ (map (fun r => nth j r 0%Q) (rows m)).
(** for peak_functions.py 162-187: rebin_times_and_waveforms *)
Definition sum_over_sensors (m : mat) : list Q := map (col_sum m) (seq 0 (cols m)).
(** numpy: sum(axis=1) *)
Definition sum_over_times (m : mat) : list Q := map sumQ (rows m).
(** for peak_functions.py 162-187: rebin_times_and_waveforms *)
Definition mslice (a b : nat) (m : mat) : mat :=
  {| cols := Nat.min b (cols m) - a; rows := map (slice a b) (rows m) |}.

(** x.clip(0) *)
Definition clip0 (x : Q) : Q := if Qltb x 0 then 0%Q else x.

(** np.average(t, weights=w): nan for an empty unweighted average, TypeError when
    the shapes differ.  (The weights used below are non-negative and not all zero,
    so the ZeroDivisionError of np.average cannot happen; it is still modelled.) *)
Definition average (t : list Q) (w : option (list Q)) : result Q :=
  match w with
  | None => if (length t =? 0) then Err NotModelled else Ok (sumQ t / qn (length t))%Q
  | Some w => if negb (length t =? length w) then Err TypeError
              else if Qeqb (sumQ w) 0 then Err ZeroDivisionError
              else Ok (sumQ (map2 Qmult w t) / sumQ w)%Q
  end.

(** peak_functions.py 162-187: rebin_times_and_waveforms.
    [even_slices] is the default list of slices (lines 166-169, also
    reco/pmaps_functions.py 13-15), [rebin_slices] the loop. *)
Definition cdiv (n s : nat) : nat := (n + s - 1) / s.
(** for peak_functions.py 162-187: rebin_times_and_waveforms *)
Definition even_slices (n stride : nat) : list (nat * nat) :=
  map (fun i => (stride * i, stride * (i + 1))) (seq 0 (cdiv n stride)).

(** for peak_functions.py 162-187: rebin_times_and_waveforms *)
Definition bin_weights (e : mat) : option (list Q) :=
  let s := map clip0 (sum_over_sensors e) in
  if existsb (fun x => negb (Qeqb x 0)) s then Some s else None.
(** for peak_functions.py 162-187: rebin_times_and_waveforms *)
Definition bin_time (times : list Q) (wfs : mat) (sl : nat * nat) : result Q :=
  average (slice (fst sl) (snd sl) times) (bin_weights (mslice (fst sl) (snd sl) wfs)).
(** for peak_functions.py 162-187: rebin_times_and_waveforms *)
Definition rebin_slices (slices : list (nat * nat)) (times widths : list Q) (wfs : mat)
  : result (list Q * list Q * mat) :=
  rbind (rmap (bin_time times wfs) slices) (fun ts =>
  Ok (ts,
      map (fun sl => sumQ (slice (fst sl) (snd sl) widths)) slices,
      {| cols := length slices;
         rows := map (fun r => map (fun sl => sumQ (slice (fst sl) (snd sl) r)) slices) (rows wfs) |})).
(** peak_functions.py 162-187: rebin_times_and_waveforms *)
Definition rebin_times_and_waveforms (times widths : list Q) (wfs : mat) (stride : Z)
  : result (list Q * list Q * mat) :=
  if (stride <? 2)%Z then Ok (times, widths, wfs)
  else rebin_slices (even_slices (length times) (Z.to_nat stride)) times widths wfs.

(** peak_functions.py 49-65: pick_slice_and_rebin *)
Definition pad_left (k : nat) (l : list Q) : list Q := repeat 0%Q k ++ l.
(** peak_functions.py 49-65: pick_slice_and_rebin *)
Definition pick_slice_and_rebin (indices : list nat) (times widths : list Q) (wfs : mat)
           (rebin_stride : Z) (pad_zeros : bool) (ratio : nat) : result (list Q * list Q * mat) :=
  rbind (ends indices) (fun '(a, b) =>
  let times_  := slice a (b + 1) times in
  let widths_ := slice a (b + 1) widths in
  let wfs_    := mslice a (b + 1) wfs in
  if pad_zeros then
    let n_miss := a mod ratio in
    rebin_times_and_waveforms (pad_left n_miss times_) (pad_left n_miss widths_)
      {| cols := n_miss + cols wfs_; rows := map (pad_left n_miss) (rows wfs_) |} rebin_stride
  else rebin_times_and_waveforms times_ widths_ wfs_ rebin_stride).

(** evm/pmaps.py 132-141, 170-175: _SensorResponses.  [cols] of an empty instance is
    0 (np.atleast_2d([]) has shape (1,0)); its single empty row carries no sample and
    is not represented. *)
Record responses := { r_ids : list nat; r_wfs : mat }.
(** for peak_functions.py 91-116: build_peak *)
Definition mk_responses (ids : list nat) (wfs : mat) : result responses :=
  if negb (length ids =? length (rows wfs)) then Err ValueError else Ok {| r_ids := ids; r_wfs := wfs |}.
(** for peak_functions.py 91-116: build_peak *)
Definition empty_responses : responses := {| r_ids := []; r_wfs := {| cols := 0; rows := [] |} |}.

(** evm/pmaps.py 27-33, 87-101: _Peak.__init__ and _check_valid_input.
    [self.__class__.__name] inside the class is mangled to [_Peak__name], so the
    empty-peak branch raises AttributeError while building the message. *)
Record peak := { p_times : list Q; p_widths : list Q; p_pmts : responses; p_sipms : responses }.
(** for peak_functions.py 91-116: build_peak *)
Definition check_valid_input (times : list Q) (pmts sipms : responses) : result unit :=
  let lt := length times in
  let lp := cols (r_wfs pmts) in
  let ls := cols (r_wfs sipms) in
  if lt =? 0 then Err AttributeError
  else if negb (lt =? lp) || (negb (lt =? ls) && negb (ls =? 0)) then Err ValueError
  else Ok tt.
(** for peak_functions.py 91-116: build_peak *)
Definition mk_peak (times widths : list Q) (pmts sipms : responses) : result peak :=
  rbind (check_valid_input times pmts sipms) (fun _ =>
  Ok {| p_times := times; p_widths := widths; p_pmts := pmts; p_sipms := sipms |}).

(** evm/pmaps.py 36-69: attributes and methods of a peak *)
Definition above (wf : list Q) (thr : Q) : list nat := np_where (fun x => Qltb thr x) wf.
(** for evm/pmaps.py 36-69 *)
Fixpoint argmax_from (best : Q) (ibest i : nat) (l : list Q) : nat :=
  match l with
  | [] => ibest
  | x :: l => if Qltb best x then argmax_from x i (S i) l else argmax_from best ibest (S i) l
  end.
(** for evm/pmaps.py 36-69 *)
Definition argmax (l : list Q) : nat := match l with [] => 0 | x :: l => argmax_from x 0 1 l end.
(** for evm/pmaps.py 36-69 *)
Definition qmax (a b : Q) : Q := if Qltb a b then b else a.
(** for evm/pmaps.py 36-69 *)
Definition maximum (l : list Q) : Q := match l with [] => 0%Q | x :: l => fold_left qmax l x end.

(** for evm/pmaps.py 36-69 *)
Definition pmt_sum (p : peak) : list Q := sum_over_sensors (r_wfs (p_pmts p)).
(** for pmaps.py 49-52: charge_above_threshold *)
Definition sipm_sum (p : peak) : list Q := sum_over_sensors (r_wfs (p_sipms p)).
(** for pmaps.py 44-47: energy_above_threshold *)
Definition take (wf : list Q) (is : list nat) : list Q := map (fun i => nth i wf 0%Q) is.

(** with evm/pmaps.py 36-69 *)
Definition time_at_max_energy (p : peak) : Q := nth (argmax (pmt_sum p)) (p_times p) 0%Q.
(** with evm/pmaps.py 36-69 *)
Definition height (p : peak) : Q := maximum (pmt_sum p).
(** pmaps.py 44-47: energy_above_threshold *)
Definition energy_above_threshold (p : peak) (thr : Q) : Q := sumQ (take (pmt_sum p) (above (pmt_sum p) thr)).
(** pmaps.py 49-52: charge_above_threshold *)
Definition charge_above_threshold (p : peak) (thr : Q) : Q := sumQ (take (sipm_sum p) (above (sipm_sum p) thr)).
(** pmaps.py 54-60: width_above_threshold *)
Definition width_above_threshold (p : peak) (thr : Q) : Q :=
  match ends (above (pmt_sum p) thr) with
  | Err _ => 0%Q
  | Ok (imin, imax) => sumQ (slice imin (imax + 1) (p_widths p))
  end.
(** core_functions.py 83-129: weighted_mean_and_var (biased); the rms of a peak is
    the square root of this variance, which is what is modelled *)
Definition weighted_mean (x w : list Q) : Q := (sumQ (map2 Qmult w x) / sumQ w)%Q.
(** for core_functions.py 83-129: weighted_mean_and_var *)
Definition weighted_var (x w : list Q) : Q :=
  let ave := weighted_mean x w in weighted_mean (map (fun x => (x - ave) * (x - ave)) x)%Q w.
(** with core_functions.py 83-129: weighted_mean_and_var *)
Definition rms2_above_threshold (p : peak) (thr : Q) : Q :=
  let is := above (pmt_sum p) thr in
  let w := take (pmt_sum p) is in
  if (length is <? 2) || Qeqb (sumQ w) 0 then 0%Q
  else weighted_var (take (p_times p) is) w.

(** peak_functions.py 68-116: build_pmt_responses, build_sipm_responses, build_peak.
    [sel] is the SiPM selection algorithm chosen by the user.
    times // ratio and widths * ratio enter only quantities that are discarded. *)
Definition fancy {A} (l : list A) (idx : list nat) : result (list A) :=
  rmap (fun i => match nth_error l i with Some a => Ok a | None => Err IndexError end) idx.
(** for peak_functions.py 91-116: build_peak *)
Definition floor_div (t : Q) (r : nat) : Q := inject_Z (Qfloor (t / qn r)).
(** peak_functions.py 91-116: build_peak *)
Definition build_peak (indices : list nat) (times widths : list Q) (ccwf : mat)
           (pmt_ids sipm_ids : list nat) (rebin_stride : Z) (sipms : option mat)
           (pmt_wid sipm_wid : Q) (sel : mat -> list nat * mat) : result peak :=
  let ratio := Z.to_nat (Qfloor (sipm_wid / pmt_wid)) in
  let with_sipms := match sipms with Some _ => true | None => false end in
  rbind (pick_slice_and_rebin indices times widths ccwf rebin_stride with_sipms ratio)
    (fun '(pk_times, pk_widths, pmt_wfs) =>
  rbind (mk_responses pmt_ids pmt_wfs) (fun pmt_r =>
  match sipms with
  | None => mk_peak pk_times pk_widths pmt_r empty_responses
  | Some sipm_wfs =>
      rbind (pick_slice_and_rebin (map (fun i => i / ratio) indices)
                                  (map (fun t => floor_div t ratio) times)
                                  (map (fun w => w * qn ratio)%Q widths) sipm_wfs
                                  (rebin_stride / Z.of_nat ratio)%Z false 40)
        (fun '(_, _, reb) =>
      let '(idx, wfs) := sel reb in
      rbind (fancy sipm_ids idx) (fun ids =>
      rbind (mk_responses ids wfs) (fun sipm_r =>
      mk_peak pk_times pk_widths pmt_r sipm_r)))
  end)).

(** peak_functions.py 119-145: find_peaks ([sipms] = Some _ for an S2 with SiPM data) *)
Definition find_peaks (ccwfs : mat) (index : list nat) (time length : minmax) (stride rebin_stride : Z)
           (pmt_ids sipm_ids : list nat) (pmt_wid sipm_wid : Q) (sipms : option mat)
           (sel : mat -> list nat * mat) : result (list peak) :=
  let times  := map (fun i => qn i * pmt_wid)%Q (seq 0 (cols ccwfs)) in
  let widths := repeat pmt_wid (cols ccwfs) in
  rbind (select_peaks (split_in_peaks index stride) time length pmt_wid) (fun splits =>
  rmap (fun indices => build_peak indices times widths ccwfs pmt_ids sipm_ids rebin_stride
                                  sipms pmt_wid sipm_wid sel) splits).

(** reco/pmaps_functions.py 18-38: get_threshold_slices.  The loop state is
    (slices so far in reverse, last_index, last_sum). *)
Fixpoint cumsum_from (acc : Q) (l : list Q) : list Q :=
  match l with [] => [] | x :: l => (acc + x)%Q :: cumsum_from (acc + x)%Q l end.
(** for pmaps_functions.py 18-38: get_threshold_slices *)
Definition np_cumsum (l : list Q) : list Q := cumsum_from 0 l.
(** for pmaps_functions.py 18-38: get_threshold_slices *)
Fixpoint thr_loop (n : nat) (thr : Q) (i last_index : nat) (last_sum : Q) (cums : list Q) : list (nat * nat) :=
  match cums with
  | [] => []
  | c :: cums =>
      if (i =? n - 1) || Qle_bool thr (c - last_sum)
      then (last_index, i + 1) :: thr_loop n thr (i + 1) (i + 1) c cums
      else thr_loop n thr (i + 1) last_index last_sum cums
  end.
(** slices[-2:] = [slice(slices[-2].start, slices[-1].stop)] *)
Fixpoint merge_last (l : list (nat * nat)) : list (nat * nat) :=
  match l with
  | [(a, _); (_, d)] => [(a, d)]
  | x :: l => x :: merge_last l
  | [] => []
  end.
(** pmaps_functions.py 18-38: get_threshold_slices *)
Definition get_threshold_slices (wf : list Q) (thr : Q) : list (nat * nat) :=
  let sl := thr_loop (length wf) thr 0 0 0 (np_cumsum wf) in
  let lst := last sl (0, 0) in
  if (1 <? length sl) && Qltb (sumQ (slice (fst lst) (snd lst) wf)) thr
  then merge_last sl else sl.

(** reco/pmaps_functions.py 41-93: rebin_peak, rebin_peak_to_slices *)
Inductive rebin_model := ByStride (factor : Z) | ByThreshold (thr : Q).
(** pmaps_functions.py 73-93: rebin_peak_to_slices *)
Definition rebin_peak_to_slices (p : peak) (slices : list (nat * nat)) : result peak :=
  rbind (rebin_slices slices (p_times p) (p_widths p) (r_wfs (p_pmts p))) (fun '(t, w, pw) =>
  rbind (mk_responses (r_ids (p_pmts p)) pw) (fun pmt_r =>
  match r_ids (p_sipms p) with
  | [] => mk_peak t w pmt_r empty_responses
  | _ => rbind (rebin_slices slices (p_times p) (p_widths p) (r_wfs (p_sipms p))) (fun '(_, _, sw) =>
         rbind (mk_responses (r_ids (p_sipms p)) sw) (fun sipm_r =>
         mk_peak t w pmt_r sipm_r))
  end)).
(** pmaps_functions.py 41-70: rebin_peak *)
Definition rebin_peak (p : peak) (m : rebin_model) : result peak :=
  match m with
  | ByThreshold thr => rebin_peak_to_slices p (get_threshold_slices (pmt_sum p) thr)
  | ByStride f => if (f <=? 1)%Z then Ok p
                  else rebin_peak_to_slices p (even_slices (length (p_times p)) (Z.to_nat f))
  end.
