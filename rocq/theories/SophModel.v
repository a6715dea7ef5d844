(** Model of the production of hits: get_s1_time, hit_builder and sipms_as_hits in cities/components.py *)
From Verif Require Import Base PeaksModel PmapioModel FiltersModel HitsModel KrModel.
Local Open Scope Q_scope.

(** components.py 1031-1044: get_s1_time *)
Definition get_s1_time (pm : pmap) (sel : selection) : result Q :=
  match np_where (fun b => b) (s1_peaks sel) with
  | first_s1 :: _ => rbind (item (s1s pm) first_s1) (fun p => Ok (time_at_max_energy p))
  | [] => match np_where (fun b => b) (s2_peaks sel) with
          | [] => Err IndexError
          | first_s2 :: _ => rbind (item (s2s pm) first_s2) (fun p => item (p_times p) 0)
          end
  end.

(** types/symbols.py 124-126: RebinMethod; an argument that may be a number or a method *)
Inductive rebin_method := stride | threshold.
(** for reco/pmaps_functions.py 41-70: rebin_peak *)
Inductive arg := Number (x : Q) | Method (m : rebin_method).

(** reco/pmaps_functions.py 41-70: rebin_peak(peak, rebin_factor, model), for arguments of any kind. A stride that is larger than one
    and not an integer is not modelled. *)
Definition rebin_any (p : peak) (rebin_factor model : arg) : result peak :=
  match model with
  | Method threshold => match rebin_factor with Number x => rebin_peak p (ByThreshold x) | Method _ => Err TypeError end
  | _ => match rebin_factor with
         | Method _ => Err TypeError
         | Number x => if Qle_bool x 1 then Ok p
                       else if Qeqb x (inject_Z (Qfloor x)) then rebin_peak p (ByStride (Qfloor x)) else Err NotModelled
         end
  end.

(** a row of the table of hits *)
Record shit := { q_event : Z; q_time : Q; q_npeak : nat; q_Xpeak : Q; q_Ypeak : Q; q_X : Q; q_Y : Q; q_Z : Q; q_Q : Q; q_E : Q }.

(** types/symbols.py SiPMCharge *)
Inductive charge_type := Raw | SignalToNoise.

Section Hits.
  (** components.py 1236, 1122: the positions of the SiPMs in the database *)
  Variable sipm_xys : list (Q * Q).
  Variable drift_v : Q.
  (** NoiseSampler.signal_to_noise(ids, charges, sample_width) *)
  Variable sipm_noise : list nat -> list Q -> Z -> list Q.
  (** evm/pmaps.py 118, 121: np.ceil(np.round(width) / units.mus) *)
  Variable sample_width : Q -> Z.
  Variable ctype : charge_type.
  (** the algorithm that gives the position of the peak; Ok None is an XYRecoFail, otherwise the positions of the clusters *)
  Variable global_reco : list (Q * Q) -> list Q -> result (option (list (Q * Q))).

  (** components.py 1047-1050: try_global_reco *)
  Definition try_global_reco (xys : list (Q * Q)) (qs : list Q) : result (Q * Q) :=
    rbind (global_reco xys qs) (fun o => match o with None => Ok (HitsModel.NN, HitsModel.NN) | Some cs => item cs 0 end).

  (** evm/pmaps.py 106-129: sipm_charge_array, for the whole peak and for each slice.
 *)
  Definition charge_single (p : peak) : list Q :=
    let qs := sum_over_times (r_wfs (p_sipms p)) in
    match ctype with Raw => qs | SignalToNoise => sipm_noise (r_ids (p_sipms p)) qs (sample_width (peak_width p)) end.
  (** for components.py 1250-1278, 1141-1166 *)
  Definition column (m : mat) (k : nat) : list Q := map (fun r => nth k r 0) (rows m).
  (** for components.py 1250-1278, 1141-1166 *)
  Definition transposed (m : mat) : list (list Q) := map (column m) (seq 0 (cols m)).
  (** for components.py 1250-1278, 1141-1166 *)
  Definition charge_slices (p : peak) : list (list Q) :=
    let qss := transposed (r_wfs (p_sipms p)) in
    match ctype with
    | Raw => qss
    | SignalToNoise => map2 (fun qs w => sipm_noise (r_ids (p_sipms p)) qs (sample_width w)) qss (p_widths p)
    end.

  (** the hits of a slice: position, charge and energy *)
  Variable slice_hits : list (Q * Q) -> list Q -> Q -> result (list sipm_hit).

  (** components.py 1250-1278, 1141-1166: the hits of one selected S2 *)
  Definition peak_hits (rebin_a rebin_b : arg) (event : Z) (timestamp s1_t : Q) (peak_no : nat) (p : peak) : result (list shit) :=
    rbind (rebin_any p rebin_a rebin_b) (fun p =>
    rbind (positions sipm_xys (r_ids (p_sipms p))) (fun xys =>
    rbind (try_global_reco xys (charge_single p)) (fun xy_peak =>
    let slice_zs := map (fun t => (t - s1_t) * 1 * drift_v) (p_times p) in
    let slice_es := pmt_sum p in
    rbind (rmap (fun '(z, (e, qs)) => rbind (slice_hits xys qs e) (fun hs =>
                  Ok (map (fun h => {| q_event := event; q_time := timestamp * (1 # 1000); q_npeak := peak_no; q_Xpeak := fst xy_peak; q_Ypeak := snd xy_peak;
                                       q_X := sx h; q_Y := sy h; q_Z := z; q_Q := sq h; q_E := se h |}) hs)))
                (combine slice_zs (combine slice_es (charge_slices p)))) (fun l =>
    Ok (concat l))))).

  (** components.py 1246-1248, 1137-1139: the selected S2s, with their numbers *)
  Definition selected (flags : list bool) (l : list peak) : list (nat * peak) :=
    map (fun '(i, (_, p)) => (i, p)) (filter (fun '(_, (b, _)) => b) (combine (seq 0 (length flags)) (combine flags l))).

  (** for components.py 1172-1284: sipms_as_hits *)
  Definition all_hits (rebin_a rebin_b : arg) (pm : pmap) (sel : selection) (event : Z) (timestamp : Q) : result (list (list shit)) :=
    rbind (get_s1_time pm sel) (fun s1_t =>
    rmap (fun '(i, p) => peak_hits rebin_a rebin_b event timestamp s1_t i p) (selected (s2_peaks sel) (s2s pm))).
End Hits.

(** astype(np.uint16) *)
Definition to_uint16 (n : nat) : nat := N.to_nat (N.of_nat n mod 65536)%N.
(** for components.py 1172-1284: sipms_as_hits *)
Definition as_uint16 (h : shit) : shit :=
  {| q_event := q_event h; q_time := q_time h; q_npeak := to_uint16 (q_npeak h); q_Xpeak := q_Xpeak h; q_Ypeak := q_Ypeak h; q_X := q_X h; q_Y := q_Y h; q_Z := q_Z h;
     q_Q := q_Q h; q_E := q_E h |}.

(** components.py 1172-1284: sipms_as_hits. The arguments are in the order in which they are declared: rebin_method, rebin_slices.
    pd.concat of an empty list raises ValueError. A peak has a slice at least, so the list is empty only if no S2 is selected. *)
Definition sipms_as_hits (sipm_xys : list (Q * Q)) (drift_v : Q) sipm_noise sample_width ctype global_reco (rebin_method rebin_slices : arg) (q_thr : Q)
    (pm : pmap) (sel : selection) (event : Z) (timestamp : Q) : result (list shit) :=
  rbind (all_hits sipm_xys drift_v sipm_noise sample_width ctype global_reco (fun xys qs e => sipms_above_threshold xys qs q_thr e)
                  rebin_method rebin_slices pm sel event timestamp) (fun l =>
  match l with [] => Err ValueError | _ => Ok (map as_uint16 (concat l)) end).

(** the columns of a cluster that are modelled *)
Record cluster := { cX : Q; cY : Q; cQ : Q }.
(** components.py 1156-1166: the clusters of a slice; Ok None is an XYRecoFail *)
Definition cluster_hits (slice_reco : list (Q * Q) -> list Q -> result (option (list cluster))) (xys : list (Q * Q)) (qs : list Q) (e : Q) : result (list sipm_hit) :=
  rbind (slice_reco xys qs) (fun o => match o with
  | None => Ok [ {| sx := HitsModel.NN; sy := HitsModel.NN; sq := HitsModel.NN; se := e |} ]
  | Some cs => rbind (e_from_q (map cQ cs) e) (fun es => Ok (map2 (fun c e => {| sx := cX c; sy := cY c; sq := cQ c; se := e |}) cs es))
  end).
(** components.py 1061-1169: hit_builder *)
Definition hit_builder (sipm_xys : list (Q * Q)) (drift_v : Q) sipm_noise sample_width ctype global_reco slice_reco (rebin_method rebin_slices : arg)
    (pm : pmap) (sel : selection) (event : Z) (timestamp : Q) : result (list shit) :=
  rbind (all_hits sipm_xys drift_v sipm_noise sample_width ctype global_reco (cluster_hits slice_reco) rebin_method rebin_slices pm sel event timestamp) (fun l =>
  Ok (concat l)).
