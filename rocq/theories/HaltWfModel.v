(** The tables that diomira, irene, hypathia and isidora leave when they fail: each city, writer by writer, in the order of its pipe *)
From Coq Require Import String.
From Verif Require Import Base ConfigModel TablesModel PeaksModel BuffersModel PmapioModel CalibModel IreneModel NoiseModel HypaModel FeeModel TrigModel DioModel PreadModel FrunModel HrunModel IsiModel.
From Verif Require Import HaltBase.
Local Open Scope nat_scope.

(** ---- the writer of PMaps ---- *)
Definition tables_add (a b : list sum_row) (c d e : list sensor_row) (t : pm_tables) : pm_tables :=
  {| t_s1 := t_s1 t ++ a; t_s2 := t_s2 t ++ b; t_si := t_si t ++ c; t_s1pmt := t_s1pmt t ++ d; t_s2pmt := t_s2pmt t ++ e |}.
Section Pmaps.
  Variable f32 : Q -> Q.
  (** pmaps_io.py 26-31: a row of the table of sums *)
  Definition one_sum (p : peak) (n : nat) (ev : Z) (i : nat) : result sum_row :=
    match nth_error (p_times p) i, nth_error (p_widths p) i, nth_error (pmt_sum p) i with
    | Some t, Some w, Some e => Ok {| s_event := ev; s_peak := overflow_protection n u16max; s_time := f32 t; s_bwidth := f32 w; s_ene := f32 e |}
    | _, _, _ => Err IndexError
    end.
  (** pmaps_io.py 33-39 and 44-50: the rows of a sensor *)
  Definition one_sensor (r : responses) (n : nat) (ev : Z) (id : nat) : result (list sensor_row) :=
    rbind (waveform r id) (fun wf => Ok (map (fun e => {| r_event := ev; r_peak := overflow_protection n u16max; r_sensor := id; r_ene := f32 e |}) wf)).
  (** pmaps_io.py 53-58: the loops of store_pmap *)
  Fixpoint write_s1s (l : list peak) (n : nat) (ev : Z) : prog pm_tables unit :=
    match l with
    | [] => ret tt
    | p :: l =>
      each (seq 0 (List.length (p_times p))) (fun i => r <- call (one_sum p n ev i) ;; put (tables_add [r] [] [] [] [])) ;;;
      each (r_ids (p_pmts p)) (fun id => rs <- call (one_sensor (p_pmts p) n ev id) ;; put (tables_add [] [] [] rs [])) ;;;
      write_s1s l (S n) ev
    end.
  (** for irene.py 148-165 *)
  Fixpoint write_s2s (l : list peak) (n : nat) (ev : Z) : prog pm_tables unit :=
    match l with
    | [] => ret tt
    | p :: l =>
      each (seq 0 (List.length (p_times p))) (fun i => r <- call (one_sum p n ev i) ;; put (tables_add [] [r] [] [] [])) ;;;
      each (r_ids (p_pmts p)) (fun id => rs <- call (one_sensor (p_pmts p) n ev id) ;; put (tables_add [] [] [] [] rs)) ;;;
      each (r_ids (p_sipms p)) (fun id => rs <- call (one_sensor (p_sipms p) n ev id) ;; put (tables_add [] [] rs [] [])) ;;;
      write_s2s l (S n) ev
    end.
  (** for irene.py 148-165 *)
  Definition write_pmap (ev : Z) (pm : pmap) : prog pm_tables unit := write_s1s (s1s pm) 0 ev ;;; write_s2s (s2s pm) 0 ev.
End Pmaps.

(** ---- irene and hypathia ---- *)
(** a program for the tables of PMaps, among the tables of irene *)
Definition set_pmaps (t : pm_tables) (o : irene_tables) : irene_tables :=
  {| it_pmaps := t; it_indices := it_indices o; it_peaks := it_peaks o; it_runs := it_runs o; it_events := it_events o; it_trigger := it_trigger o; it_numbers := it_numbers o; it_in := it_in o; it_out := it_out o |}.
(** for irene.py 148-165 *)
Definition on_pmaps (p : prog pm_tables unit) : prog irene_tables unit := within it_pmaps set_pmaps p.
(** rows appended to the other tables *)
Definition ire_add (indices peaks : list (Z * bool)) (runs : list Z) (events : list (Z * Q)) (types : list Z) (channels : list (list Z)) (numbers : list Z) (i u : nat) (o : irene_tables) : irene_tables :=
  {| it_pmaps := it_pmaps o; it_indices := it_indices o ++ indices; it_peaks := it_peaks o ++ peaks; it_runs := it_runs o ++ runs; it_events := it_events o ++ events;
     it_trigger := {| trg_types := trg_types (it_trigger o) ++ types; trg_channels := trg_channels (it_trigger o) ++ channels |};
     it_numbers := it_numbers o ++ numbers; it_in := i + it_in o; it_out := u + it_out o |}.
Section Irene.
  Context {W L X : Type}.
  Variable f32 : Q -> Q.
  (** what is done before the filter of the indices (irene.py 148-153, hypathia.py 149-158, components.py 1333), None when it is not passed; and after it (components.py 1336-1337) *)
  Variable first : nat -> W -> L -> result (option X).
  Variable second : X -> result (list peak * list peak).
  Variable n_sensors : nat.
  (** trigger_io.py 9-19 *)
  Definition write_trigger (typ : option Z) (channels : option (list Z)) : prog irene_tables unit :=
    put (ire_add [] [] [] [] match typ with Some z => if (z =? 0)%Z then [] else [z] | None => [] end [] [] 0 0) ;;;
    match channels with
    | None => ret tt
    | Some l => if List.length l =? n_sensors then put (ire_add [] [] [] [] [] [l] [] 0 0) else raise ValueError
    end.
  (** irene.py 148-165, hypathia.py 149-169 and components.py 1333-1341 *)
  Definition pmaps_step (w : waveforms (Z * Q) W L Z (list Z)) : prog irene_tables unit :=
    i <- look it_in ;;
    put (ire_add [] [] [] [] [] [] [] 1 0) ;;;
    x <- call (first i (w_pmt w) (w_sipm w)) ;;
    match x with
    | None => put (ire_add [(fst (w_event w), false)] [] [] [] [] [] [] 0 0)
    | Some x =>
      put (ire_add [(fst (w_event w), true)] [] [] [] [] [] [] 0 0) ;;;
      pm <- call (second x) ;;
      put (ire_add [] [(fst (w_event w), nonempty_pmap pm)] [] [] [] [] [] 0 0) ;;;
      if nonempty_pmap pm then
        on_pmaps (write_pmap f32 (fst (w_event w)) {| s1s := fst pm; s2s := snd pm |}) ;;;
        put (ire_add [] [] [] [] [] [] [fst (w_event w)] 0 1) ;;;
        put (ire_add [] [] [w_run w] [w_event w] [] [] [] 0 0) ;;;
        write_trigger (w_trg w) (w_chn w)
      else ret tt
    end.
  (** with irene.py 148-165 *)
  Definition pmaps_left (open_file : string -> h5file (Z * Q) W L Z (list Z)) (paths : list string) : irene_tables * option pyexc := leave pmaps_step (wf_from_files open_file paths) nothing_found.
  (** the two parts, as one: the step of FrunModel.v *)
  Definition both (i : nat) (w : W) (l : L) : result (option (list peak * list peak)) :=
    rbind (first i w l) (fun x => match x with None => Ok None | Some x => rbind (second x) (fun pm => Ok (Some pm)) end).
End Irene.
(** irene_step and hypathia_step, cut at the filter *)
Section Parts.
  Variable butter : Q -> Q * Q * Q.
  Variable sqrt : Q -> Q.
  (** IreneModel.v: irene.py 148-153 *)
  Definition irene_first (pmts : list pmt_row) (sipms : list sipm_row) (p : params) (ns : nat) (rwf_pmt rwf_sipm : list (list Z)) : result (option (list (list Q) * list nat * list nat * list (list Z))) :=
    rbind (sensor_masker pmts sipms rwf_pmt rwf_sipm) (fun '(pmt, sipm) =>
    rbind (deconv_pmt butter sqrt pmts (n_baseline p) pmt) (fun cwf =>
    rbind (calibrate_active_pmts pmts (n_maw p) (thr_maw p) ns cwf) (fun '(ccwfs, _, cwf_sum, cwf_sum_maw) =>
    let '(i1, i2) := zero_suppress_wfs (thr_csum_s1 p) (thr_csum_s2 p) cwf_sum cwf_sum_maw in
    Ok (if nonempty_indices i1 i2 then Some (ccwfs, i1, i2, sipm) else None)))).
  (** components.py 1336-1337 *)
  Definition irene_second (pmts : list pmt_row) (sipms : list sipm_row) (p : params) (ns nss : nat) (x : list (list Q) * list nat * list nat * list (list Z)) : result (list peak * list peak) :=
    let '(ccwfs, i1, i2, sipm) := x in
    rbind (calibrate_active_sipms sipms sipm) (fun cs => build_pmap pmts sipms p {| cols := ns; rows := ccwfs |} i1 i2 {| cols := nss; rows := cs |}).
  (** HypaModel.v: hypathia.py 149-158 *)
  Definition hypathia_first (draw_pmt draw_sipm : nat -> nat -> Q -> Q) (pmts : list pmt_row) (sipms : list sim_row) (p : hparams) (pmtrd : mat) (sipmrd noise : list (list Q))
    : result (option (mat * list nat * list nat * list (list Z))) :=
    rbind (rebin_pmts (h_rebin p) pmtrd) (fun rwf =>
    let ccwfs := fluctuate_pmts draw_pmt (h_rms p) rwf in
    rbind (simulate_sipms draw_sipm sipms (h_noise_cut p) (h_padding p) noise sipmrd) (fun wfs =>
    rbind (rmap (rmap discretize) wfs) (fun sipm =>
    rbind (mask_rows (map pm_active pmts) (rows pmtrd)) (fun _ =>
    rbind (mask_rows (map (fun d => sm_active (ss_row d)) sipms) sipm) (fun sipm =>
    let sum := sum_over_sensors ccwfs in
    let '(i1, i2) := zero_suppress_wfs (thr_csum_s1 (h_pmap p)) (thr_csum_s2 (h_pmap p)) sum sum in
    Ok (if nonempty_indices i1 i2 then Some (ccwfs, i1, i2, sipm) else None)))))).
  (** components.py 1336-1337 *)
  Definition hypathia_second (pmts : list pmt_row) (sipms : list sim_row) (p : hparams) (nss : nat) (x : mat * list nat * list nat * list (list Z)) : result (list peak * list peak) :=
    let '(ccwfs, i1, i2, sipm) := x in
    rbind (calibrate_active_sipms (map ss_row sipms) sipm) (fun cs => build_pmap pmts (map ss_row sipms) (h_pmap p) ccwfs i1 i2 {| cols := nss; rows := cs |}).
End Parts.

(** ---- diomira ---- *)
Definition dio_add (flags : list (Z * bool)) (runs : list Z) (events : list (Z * Q)) (rwf blr sipm : list (list (list Z))) (numbers : list Z) (i p : nat) (o : dio_tables) : dio_tables :=
  {| dt_filter := dt_filter o ++ flags; dt_runs := dt_runs o ++ runs; dt_events := dt_events o ++ events; dt_rwf := dt_rwf o ++ rwf; dt_blr := dt_blr o ++ blr; dt_sipm := dt_sipm o ++ sipm;
     dt_numbers := dt_numbers o ++ numbers; dt_in := i + dt_in o; dt_passed := p + dt_passed o |}.
Section Diomira.
  Variables (butter : Q -> Q * Q * Q) (sqrt : Q -> Q) (e : electronics).
  (** the random numbers of the event number i of the run *)
  Variables (draw_pmt draw_sipm : nat -> nat -> nat -> Q -> Q) (noise : nat -> nat -> pmt_noise) (dark : nat -> list (list Q)).
  Variables (db : list dio_row) (sipms : list sim_row) (noise_cut : Q) (padding : nat) (t : option (bool * trig_conf)) (npmt ns nsipm nss : nat).
  (** diomira.py 137-156 *)
  Definition diomira_step (w : mcrd_event) : prog dio_tables unit :=
    i <- look dt_in ;;
    put (dio_add [] [] [] [] [] [] [] 1 0) ;;;
    made <- call (simulate_pmts e (draw_pmt i) (noise i) db (w_pmt w)) ;;
    let '(rwf, blr) := made in
    pass <- call (trigger_decision butter sqrt (map dp_row db) t rwf) ;;
    put (dio_add [(fst (w_event w), pass)] [] [] [] [] [] [] 0 (if pass then 1 else 0)) ;;;
    if pass then
      sipm <- call (simulate_sipms (draw_sipm i) sipms noise_cut padding (dark i) (w_sipm w)) ;;
      put (dio_add [] [] [] [] [] [] [fst (w_event w)] 0 0) ;;;
      (if fits_table npmt (ns / 25) rwf then put (dio_add [] [] [] [rwf] [] [] [] 0 0) else raise ValueError) ;;;
      (if fits_table npmt (ns / 25) blr then put (dio_add [] [] [] [] [blr] [] [] 0 0) else raise ValueError) ;;;
      (if fits_table nsipm nss sipm then z <- call (rmap (rmap store_float) sipm) ;; put (dio_add [] [] [] [] [] [z] [] 0 0) else raise ValueError) ;;;
      put (dio_add [] [w_run w] [w_event w] [] [] [] [] 0 0)
    else ret tt.
  (** with diomira.py 137-156 *)
  Definition diomira_left (open_file : string -> mcrd_file) (paths : list string) : dio_tables * option pyexc := leave diomira_step (wf_from_files open_file paths) nothing_simulated.
End Diomira.

(** ---- isidora ---- *)
Definition isi_add (cwf sipm : list (list (list Z))) (runs : list Z) (events : list (Z * Q)) (numbers : list Z) (i : nat) (o : isi_tables) : isi_tables :=
  {| si_cwf := si_cwf o ++ cwf; si_sipm := si_sipm o ++ sipm; si_runs := si_runs o ++ runs; si_events := si_events o ++ events; si_numbers := si_numbers o ++ numbers; si_in := i + si_in o |}.
Section Isidora.
  Variables (butter : Q -> Q * Q * Q) (sqrt : Q -> Q) (pmts : list pmt_row) (n_baseline : nat) (s : shapes).
  (** isidora.py 70-77 *)
  Definition isidora_step (w : rwf_event) : prog isi_tables unit :=
    put (isi_add [] [] [] [] [] 1) ;;;
    put (isi_add [] [] [] [] [fst (w_event w)] 0) ;;;
    cwf <- call (deconv_pmt butter sqrt pmts n_baseline (w_pmt w)) ;;
    (if fits_table (n_pmt s) (pmt_wl s) cwf then z <- call (rmap (rmap store_float) cwf) ;; put (isi_add [z] [] [] [] [] 0) else raise ValueError) ;;;
    (if fits_table (n_sipm s) (sipm_wl s) (w_sipm w) then put (isi_add [] [w_sipm w] [] [] [] 0) else raise ValueError) ;;;
    put (isi_add [] [] [w_run w] [w_event w] [] 0).
  (** with isidora.py 70-77 *)
  Definition isidora_left (open_file : string -> rwf_file) (paths : list string) : isi_tables * option pyexc := leave isidora_step (wf_from_files open_file paths) nothing_restored.
End Isidora.
