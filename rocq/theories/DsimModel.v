(** Model of one event of cities/detsim.py, from the simulated hits to the buffers written. The steps are modelled in DetsimModel.v
    (hits, electrons, S2), S1Model.v (S1) and BuffersModel.v (buffers); this file composes them as the pipe of the city does.
    Exact arithmetic; the random draws and the light tables are parameters. *)
From Verif Require Import Base Arrays PeaksModel BuffersModel DetsimModel S1Model.
Local Open Scope Q_scope.

(** detsim.py 164-170: the parameters of the city; the buffer parameters are those of [bcfg] *)
Record physics := { ws : Q; wi : Q; fano : Q; drift_v : Q; trans : Q; longi : Q; gain : Q; conde : Q; el_dv : Q }.
(** what becomes of an event: no energy in the active volume (branch 272), no light (branch 276) or the buffers written *)
Inductive outcome := NoActive | DarkEvent | Written (rows : list out_row).

Section Event.
(** the draws of simulate_electrons.py (DetsimModel.v) *)
Variable poisson : nat -> nat.
Variable gauss : nat -> Q.
Variable sqrtQ : Q -> Q.
Variable decay : nat -> nat -> Q.
Variables draw_x draw_y draw_z draw_ph : nat -> Q.
(** the number of scintillation photons of the i-th hit: np.random.poisson (simulate_s1.py 43) *)
Variable scintillation : nat -> Q -> nat.
(** the counts drawn by np.random.poisson for a sensor and a sample with that mean: S1 of PMTs, S2 of PMTs, S2 of SiPMs *)
Variables draw_s1 draw_s2 draw_si : nat -> nat -> Q -> nat.
(** the primitive of the emission times of S1Model.v *)
Variable emitted : Q -> Q.
(** the function made from the table of S1 light (LtModel.v lighttable_function), and its number of sensors *)
Variable s1_lt : list Q -> list Q -> list Q -> result (list (list Q)).
Variable s1_sensors : nat.

(** np.random.poisson of an array of means; a negative mean is a ValueError *)
Definition poisson_array (draw : nat -> nat -> Q -> nat) (means : list (list Q)) : result (list (list Q)) :=
  if existsb (existsb (fun q => Qltb q 0)) means then Err ValueError
  else Ok (mapi (fun s row => mapi (fun b q => qn (draw s b q)) row) means).

(** detsim_waveforms.py 52-88: s1_waveforms_creator *)
Definition create_s1_waveforms (ws width : Q) (hits : list mchit) (tmin len : Q) : result (list (list Q)) :=
  if Qeqb ws 0 then Err NotModelled
  else if existsb (fun h => Qltb (he h / ws) 0) hits then Err ValueError
  else
  let photons := mapi (fun i h => qn (scintillation i (he h / ws))) hits in
  rbind (s1_lt (map hx hits) (map hy hits) (map hz hits)) (fun values =>
  rbind (generate_s1_waveform emitted (s1_pes_at_pmts photons values s1_sensors) (map htime hits) len width tmin) (fun wfs =>
  poisson_array draw_s1 wfs)).

(** detsim.py 131-139: s2_waveform_creator *)
Definition create_s2_waveform (draw : nat -> nat -> Q -> nat) (width : Q) (lt : light_table) (dv : Q) (els : list electron) (tmin len : Q) : result (list (list Q)) :=
  rbind (create_wfs els lt dv width len tmin) (poisson_array draw).

(** the sum of two arrays (detsim.py 228); numpy would repeat an array with one row or column, which is not modelled *)
Definition shape (a : list (list Q)) : list nat := map (@length Q) a.
(** for detsim.py 264-284 *)
Definition add_arrays (a b : list (list Q)) : result (list (list Q)) :=
  if list_eq_dec Nat.eq_dec (shape a) (shape b) then Ok (map2 (map2 Qplus) a b) else Err NotModelled.

(** an array of waveforms; shape[1] is the length of its rows *)
Definition to_mat (a : list (list Q)) : mat := {| cols := match a with [] => 0 | r :: _ => length r end; rows := a |}.
(** detsim.py 142-150: bin_edges_getter; the times start at 0 *)
Definition bin_edges (width : Q) (m : mat) : list Q := map (fun i => 0 + qn i * width) (seq 0 (cols m)).

(** detsim.py 264-284: the event [number] at time [timestamp]; [c] has the max_time returned by check_max_time *)
Definition detsim_event (c : bcfg) (p : physics) (lt_pmt lt_sipm : light_table) (ACTIVE BUFFER : nat) (names : list (nat * nat))
    (number : Z) (timestamp : Q) (hits : list mchit) : result outcome :=
  rbind (filter_hits_after_max_time (max_time c) hits) (fun intime =>
  rbind (hits_selector ACTIVE BUFFER false names intime) (fun s1_hits =>
  rbind (hits_selector ACTIVE BUFFER true names s1_hits) (fun active =>
  if negb (existsb (fun h => negb (Qeqb (he h) 0)) active) then Ok NoActive
  else
  rbind (simulate_ielectrons poisson gauss sqrtQ decay draw_x draw_y draw_z draw_ph (wi p) (fano p) (drift_v p) (trans p) (longi p) (gain p) (conde p) active) (fun simulated =>
  let els := fst simulated in
  if (fold_left Z.add (map eph els) 0 <=? 0)%Z then Ok DarkEvent
  else
  rbind (get_buffer_times_and_length (pmt_wid c) (sipm_wid c) (el_gap_width lt_sipm) (el_dv p) (max_time c) (map htime s1_hits) (map et els)) (fun tl =>
  let '(tmin, len) := tl in
  rbind (create_s1_waveforms (ws p) (pmt_wid c) s1_hits tmin len) (fun s1_pmt =>
  rbind (create_s2_waveform draw_s2 (pmt_wid c) lt_pmt (el_dv p) els tmin len) (fun s2_pmt =>
  rbind (add_arrays s1_pmt s2_pmt) (fun pmt_wfs =>
  rbind (create_s2_waveform draw_si (sipm_wid c) lt_sipm (el_dv p) els tmin len) (fun sipm_wfs =>
  let pmts := to_mat pmt_wfs in
  let sipms := to_mat sipm_wfs in
  rbind (save_buffers c (@Ok (mat * mat)) number timestamp (bin_edges (pmt_wid c) pmts) pmts (bin_edges (sipm_wid c) sipms) sipms) (fun rows =>
  Ok (Written rows))))))))))).
End Event.
