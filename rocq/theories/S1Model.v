(** Model of the simulation of the scintillation light: detsim/simulate_s1.py and detsim/detsim_waveforms.py.
    Exact arithmetic. The integral of the emission-time distribution (scipy's quad) is the difference of a primitive [emitted]. *)
From Verif Require Import Base Arrays PeaksModel BuffersModel DetsimModel.
Local Open Scope Q_scope.

(** simulate_s1.py 46-66: compute_s1_pes_at_pmts: photons[:, np.newaxis] * lt(xs, ys, zs), transposed. The light table gives a row per hit. *)
Definition s1_pes_at_pmts (photons : list Q) (values : list (list Q)) (nsensors : nat) : list (list Q) :=
  map (fun s => map2 (fun n row => n * nth s row 0) photons values) (seq 0 nsensors).

(** np.histogram(times, bins = edges, weights = weights)[0]: each bin contains its lower edge, the last one both *)
Definition in_edges (edges : list Q) (i : nat) (t : Q) : bool :=
  Qle_bool (nth i edges 0) t && (Qltb t (nth (S i) edges 0) || (Nat.eqb (S (S i)) (length edges) && Qle_bool t (nth (S i) edges 0))).
(** for detsim_waveforms.py 15-49: generate_s1_waveform *)
Definition histogram (times weights edges : list Q) : result (list Q) :=
  if negb (Nat.eqb (length times) (length weights)) then Err ValueError
  else Ok (map (fun i => sumF snd (filter (fun h => in_edges edges i (fst h)) (combine times weights))) (seq 0 (length edges - 1))).

Section S1.
(** the fraction of the light emitted up to a time after the interaction *)
Variable emitted : Q -> Q.

(** detsim_waveforms.py 40-43. 2. * mus = 2000 ns *)
Definition time_bins (buffer_length bin_width : Q) : result (list Q) :=
  let ts := arange 0 (Qmin 2000 buffer_length + bin_width) bin_width in
  let n := S (Z.to_nat (Qfloor (buffer_length / bin_width))) in
  if Nat.ltb n (length ts - 1) then Err IndexError
  else Ok (map (fun i => if Nat.ltb i (length ts - 1) then emitted (nth (S i) ts 0) - emitted (nth i ts 0) else 0) (seq 0 n)).

(** 46-48: wfs[pmt, idx:] += (wf[idx] * p[:-idx-1]); arrays of different lengths are refused, unless there is only one value to add *)
Definition add_tail (p wf : list Q) (wfs : list Q) (idx : nat) : result (list Q) :=
  let vs := map (fun q => nth idx wf 0 * q) (firstn (length p - (idx + 1)) p) in
  let tail := skipn idx wfs in
  if Nat.eqb (length vs) (length tail) then Ok (firstn idx wfs ++ map2 Qplus tail vs)
  else match vs with
       | [v] => Ok (firstn idx wfs ++ map (fun w => w + v) tail)
       | _ => Err ValueError
       end.
(** for detsim_waveforms.py 15-49: generate_s1_waveform *)
Definition spread_in_time (p wf : list Q) : result (list Q) :=
  rfold (add_tail p wf) (np_where (fun x => Qltb 0 x) wf) (repeat 0 (length wf)).

(** detsim_waveforms.py 15-49: generate_s1_waveform. np.stack of no PMTs: ValueError. *)
Definition generate_s1_waveform (pes_at_pmts : list (list Q)) (hit_times : list Q) (buffer_length bin_width start_time : Q) : result (list (list Q)) :=
  if Qeqb bin_width 0 then Err ZeroDivisionError
  else let bins := arange start_time (start_time + buffer_length + bin_width) bin_width in
       rbind (rmap (fun pes => histogram hit_times pes bins) pes_at_pmts) (fun wfs_ =>
       match wfs_ with
       | [] => Err ValueError
       | _ => rbind (time_bins buffer_length bin_width) (fun p => rmap (spread_in_time p) wfs_)
       end).
End S1.
