(** Vocabulary for C104 *)
From Verif Require Import Base PeaksModel PeaksSpec CalibModel CalibSpec IreneModel IreneSpec PmapioModel PmapioSpec IrunModel.
Local Open Scope nat_scope.

(** [pm] is the PMap of the event [e], or [e] has none: the waveforms of each sensor are computed from its own raw waveform, the samples above
    threshold are found in the sums of the PMTs, and the peaks are the groups of such samples that qualify (see IreneSpec.v) *)
Definition right_pmap (butter : Q -> Q * Q * Q) (sqrt : Q -> Q) (pmts : list pmt_row) (sipms : list sipm_row) (p : params) (ns r m : nat) (e : raw_event) (pm : option pmap) : Prop :=
  exists xs css i1 i2,
    Forall2 (own_pmt butter sqrt (n_baseline p)) (pmts_in_use pmts (re_pmt e)) xs /\
    Forall2 (fun x cs => own_sipm (snd x) cs) (sipms_in_use sipms (re_sipm e)) css /\
    samples_above ns (s1_sum (n_maw p) (thr_maw p) xs) (thr_csum_s1 p) i1 /\
    samples_above ns (s2_sum xs) (thr_csum_s2 p) i2 /\
    let cc := {| cols := ns; rows := map snd xs |} in
    let ids := map pm_id (filter pm_active pmts) in
    let S1 := peaks_of (s1_params p) (pmt_wid p) i1 (s1_of cc (pmt_wid p) (k_rebin (s1_params p)) ids) in
    let S2 := peaks_of (s2_params p) (pmt_wid p) i2 (s2_of cc (pmt_wid p) ids (cut p) (sipms_in_use sipms (re_sipm e)) css r m) in
    match pm with
    | None => i1 = [] \/ i2 = [] \/ (S1 [] /\ S2 [])
    | Some pm => i1 <> [] /\ i2 <> [] /\ has_peaks pm /\ S1 (s1s pm) /\ S2 (s2s pm)
    end.

(** the events that have a PMap, in order *)
Definition found (l : list (raw_event * option pmap)) : list (raw_event * pmap) := flat_map (fun x => match snd x with Some pm => [(fst x, pm)] | None => [] end) l.
