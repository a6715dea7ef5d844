(** The cities as plain programs: what is done with each event, line after line *)
From Coq Require Import List Bool Arith ZArith String.
Import ListNotations.
From Verif Require Import DataflowModel DataflowSpec CityModel.

Section Spec.
Context {V : Type}.
Variable truth is_none : V -> bool.
Variable effect : nat -> list V -> option exc.

(** what a program does: writes a row in a table, counts, selects or rejects, adds to a list *)
Inductive action := Write (table : nat) (row : list V) | Count (id : nat) | Select (id : nat) (b : bool) | Add (id : nat) (v : V).
Definition program (A : Type) : Type := list action * res A.
Definition done : program unit := ([], Ret tt).
Definition bind {A B} (p : program A) (f : A -> program B) : program B :=
  match p with (a, Ret x) => let (b, r) := f x in (a ++ b, r) | (a, Raise e) => (a, Raise e) end.
Definition call {A} (r : res A) : program A := ([], r).
Definition act (a : action) : program unit := ([a], Ret tt).
Definition write (t : nat) (row : list V) : program unit := ([Write t row], match effect t row with None => Ret tt | Some e => Raise e end).
(** go on only if the condition holds *)
Definition if_selected (id : nat) (v : V) (p : program unit) : program unit := bind (act (Select id (truth v))) (fun _ => if truth v then p else done).
Notation "x <- p ;; q" := (bind p (fun x => q)) (at level 61, p at next level, right associativity).
Notation "p ;; q" := (bind p (fun _ => q)) (at level 61, right associativity).

(** the values of an operation that gives several *)
Definition two {A} (l : list V) (f : V -> V -> program A) : program A := match l with [a; b] => f a b | _ => ([], Raise TypeError) end.
Definition three {A} (l : list V) (f : V -> V -> V -> program A) : program A := match l with [a; b; c] => f a b c | _ => ([], Raise TypeError) end.
Definition four {A} (l : list V) (f : V -> V -> V -> V -> program A) : program A := match l with [a; b; c; d] => f a b c d | _ => ([], Raise TypeError) end.
Definition five {A} (l : list V) (f : V -> V -> V -> V -> V -> program A) : program A := match l with [a; b; c; d; e] => f a b c d e | _ => ([], Raise TypeError) end.
Definition six {A} (l : list V) (f : V -> V -> V -> V -> V -> V -> program A) : program A := match l with [a; b; c; d; e; g] => f a b c d e g | _ => ([], Raise TypeError) end.
Definition gives (n : nat) (op : list V -> res (list V)) : Prop := forall args out, op args = Ret out -> List.length out = n.

(** the program is run on each event until one fails *)
Fixpoint for_each {E} (p : E -> program unit) (events : list E) : list action * option exc :=
  match events with
  | [] => ([], None)
  | e :: events => match p e with
                   | (a, Raise ex) => (a, Some ex)
                   | (a, Ret _) => let (b, r) := for_each p events in (a ++ b, r)
                   end
  end.

(** the rows of a table, the counts, the numbers of selected and rejected, the list *)
Definition rows (t : nat) (l : list action) : list (list V) := flat_map (fun a => match a with Write i r => if i =? t then [r] else [] | _ => [] end) l.
Definition counted (id : nat) (l : list action) : nat := List.length (filter (fun a => match a with Count i => i =? id | _ => false end) l).
Definition selected (id : nat) (b : bool) (l : list action) : nat := List.length (filter (fun a => match a with Select i c => (i =? id) && Bool.eqb c b | _ => false end) l).
Definition added (id : nat) (l : list action) : list V := flat_map (fun a => match a with Add i v => if i =? id then [v] else [] | _ => [] end) l.

Definition row_event (run number time : V) : program unit := write t_events [run; number; time].
Definition number (v : V) : program unit := act (Add r_evtnum_list v).

(** ---------- the programs ---------- *)
Section PmapsCities.
  Variables (mask deconv_calibrate zero_suppress : list V -> res (list V)) (deconv calibrate_sipms check_indices build_pmap check_pmap : list V -> res V).
  Variables (mcrd_rebin charge_fluctuation sim_sipm discretize sum_pmts : list V -> res V).
  Definition pmaps_program (e : waveforms) (ccwfs s1 s2 sipm : V) : program unit :=
    above <- call (check_indices [s1; s2]);;
    write t_indices_filter [w_event e; above];;
    if_selected r_over_thr above (
      charges <- call (calibrate_sipms [sipm]);;
      pmap <- call (build_pmap [ccwfs; s1; s2; charges]);;
      full <- call (check_pmap [pmap]);;
      write t_pmap_filter [w_event e; full];;
      if_selected r_full_pmap full (
        write t_pmaps [pmap; w_event e];;
        act (Count r_events_out);;
        number (w_event e);;
        row_event (w_run e) (w_event e) (w_time e);;
        write t_trigger [w_type e; w_channels e])).
  Definition irene_event (e : waveforms) : program unit :=
    act (Count r_events_in);;
    m <- call (mask [w_pmt e; w_sipm e]);; two m (fun pmt sipm =>
    cwf <- call (deconv [pmt]);;
    c <- call (deconv_calibrate [cwf]);; four c (fun ccwfs _ total total_maw =>
    z <- call (zero_suppress [total; total_maw]);; three z (fun s1 s2 _ =>
    pmaps_program e ccwfs s1 s2 sipm))).
  Definition hypathia_event (e : waveforms) : program unit :=
    act (Count r_events_in);;
    rwf <- call (mcrd_rebin [w_pmt e]);;
    ccwfs <- call (charge_fluctuation [rwf]);;
    sim <- call (sim_sipm [w_sipm e]);;
    sim <- call (discretize [sim]);;
    m <- call (mask [w_pmt e; sim]);; two m (fun _ sipm =>
    total <- call (sum_pmts [ccwfs]);;
    z <- call (zero_suppress [total; total]);; three z (fun s1 s2 _ =>
    pmaps_program e ccwfs s1 s2 sipm)).
End PmapsCities.

Section HitsCities.
  Variables (classify passed pointlike sipms_as_hits enough_hits merge_nn correct cluster : list V -> res V).
  Variables (drop_external threshold_hits has_hits copy_energy sort_hits has_tracks summary change_type : list V -> res V) (tracks : list V -> res (list V)).
  Variables (cut_sensors drop_sensors nonempty deconvolve add_info : list V -> res V).
  Definition classified (e : pmap_of) (p : V -> program unit) : program unit :=
    act (Count r_events_in);;
    selector <- call (classify [p_pmap e]);;
    ok <- call (passed [selector]);;
    write t_s12_filter [p_event e; ok];;
    if_selected r_selection ok (act (Count r_events_out);; p selector).
  Definition dorothea_event (e : pmap_of) : program unit :=
    classified e (fun selector =>
      point <- call (pointlike [p_pmap e; selector; p_event e; p_time e]);;
      number (p_event e);;
      write t_kdst [point];;
      row_event (p_run e) (p_event e) (p_time e)).
  Definition sophronia_event (e : pmap_of) : program unit :=
    classified e (fun selector =>
      (point <- call (pointlike [p_pmap e; selector; p_event e; p_time e]);;
       write t_kdst [point]);;
      (hits <- call (sipms_as_hits [p_pmap e; selector; p_event e; p_time e]);;
       valid <- call (enough_hits [hits]);;
       write t_valid_hit [p_event e; valid];;
       if_selected r_hits_selection valid (
         hits <- call (merge_nn [hits]);;
         hits <- call (correct [hits]);;
         hits <- call (cluster [hits]);;
         write t_hits [hits]));;
      number (p_event e);;
      row_event (p_run e) (p_event e) (p_time e)).
  Definition tracks_program (e : hits_of) (hits : V) : program unit :=
    some <- call (has_hits [hits]);;
    write t_hits_filter [h_event e; some];;
    if_selected r_hits_passed some (
      ehits <- call (copy_energy [hits]);;
      t <- call (tracks [ehits]);; three t (fun table thits out =>
      thits <- call (sort_hits [thits]);;
      full <- call (has_tracks [table]);;
      (info <- call (summary [h_event e; table; thits; out]);;
       write t_summary [info]);;
      write t_topology_filter [h_event e; full];;
      (thits <- call (change_type [thits]);;
       write t_hits [thits]);;
      if_selected r_topology full (write t_tracks [table]))).
  Definition esmeralda_event (e : hits_of) : program unit :=
    act (Count r_events_in);;
    hits <- call (correct [h_hits e]);;
    hits <- call (drop_external [hits]);;
    hits <- call (threshold_hits [hits]);;
    tracks_program e hits;;
    write t_kdst [h_kdst e];;
    row_event (h_run e) (h_event e) (h_time e);;
    number (h_event e);;
    act (Count r_events_out).
  Definition kdst_if_any (e : hits_of) : program unit := if is_none (h_kdst e) then done else write t_kdst [h_kdst e].
  Definition isaura_event (e : hits_of) : program unit :=
    act (Count r_events_in);;
    number (h_event e);;
    act (Count r_events_out);;
    tracks_program e (h_hits e);;
    row_event (h_run e) (h_event e) (h_time e);;
    kdst_if_any e.
  Definition beersheba_event (e : hits_of) : program unit :=
    act (Count r_events_in);;
    hits <- call (correct [h_hits e]);;
    hits <- call (threshold_hits [hits]);;
    write t_hits [hits];;
    hits <- call (cut_sensors [hits]);;
    hits <- call (drop_sensors [hits]);;
    some <- call (nonempty [hits]);;
    write t_nohits_filter [h_event e; some];;
    if_selected r_events_pass some (
      deconv <- call (deconvolve [hits]);;
      deconv <- call (add_info [h_time e; deconv]);;
      act (Count r_events_out);;
      number (h_event e);;
      write t_deconv [deconv];;
      kdst_if_any e;;
      row_event (h_run e) (h_event e) (h_time e)).
End HitsCities.

Section SimulationCities.
  Variables (sim_pmt : list V -> res (list V)) (sim_sipm emulate_trigger trigger_pass deconv : list V -> res V).
  Variables (has_response find_signal has_signal trigger_times calc_buffers order : list V -> res V) (time_extremes bin_pmts bin_sipms : list V -> res (list V)).
  Variables (any_active enough_photons s1_wfs s2_pmt s2_sipm add_wfs : list V -> res V) (delayed s1_hits active_hits electrons buffer_info edges : list V -> res (list V)).
  Definition diomira_event (e : waveforms) : program unit :=
    act (Count r_events_in);;
    s <- call (sim_pmt [w_pmt e]);; two s (fun pmt blr =>
    trigger <- call (emulate_trigger [pmt]);;
    ok <- call (trigger_pass [trigger]);;
    write t_trigger_filter [w_event e; ok];;
    if_selected r_selection ok (
      sipm <- call (sim_sipm [w_sipm e]);;
      number (w_event e);;
      write t_pmt [pmt];;
      write t_blr [blr];;
      write t_sipm [sipm];;
      row_event (w_run e) (w_event e) (w_time e))).
  Definition isidora_event (e : waveforms) : program unit :=
    act (Count r_events_in);;
    number (w_event e);;
    (cwf <- call (deconv [w_pmt e]);;
     write t_pmt [cwf]);;
    write t_sipm [w_sipm e];;
    row_event (w_run e) (w_event e) (w_time e).
  (** the buffers of an event are written only if there is signal in it *)
  Definition buffers_program (with_order : bool) (event time pmt_bins pmts sipm_bins sipms : V) : program unit :=
    pulses <- call (find_signal [pmts]);;
    some <- call (has_signal [pulses]);;
    write t_signal_filter [event; some];;
    if_selected r_signal some (
      times <- call (trigger_times [pulses; time; pmt_bins]);;
      buffers <- call (calc_buffers [pulses; pmt_bins; pmts; sipm_bins; sipms]);;
      let save b := (write t_buffers [event; times; b];; number event) in
      if with_order then (ordered <- call (order [pmts; sipms; buffers]);; save ordered) else save buffers).
  Definition buffy_event (e : sensors_of) : program unit :=
    act (Count r_events_in);;
    ok <- call (has_response [s_pmt e; s_sipm e]);;
    write t_detected [s_event e; ok];;
    if_selected r_events_pass ok (
      t <- call (time_extremes [s_pmt e; s_sipm e]);; two t (fun tmin tmax =>
      p <- call (bin_pmts [s_pmt e; tmin; tmax]);; two p (fun pmt_bins pmts =>
      s <- call (bin_sipms [s_sipm e; tmin; tmax]);; two s (fun sipm_bins sipms =>
      buffers_program true (s_event e) (s_time e) pmt_bins pmts sipm_bins sipms)))).
  Definition detsim_event (e : mchits_of) : program unit :=
    act (Count r_events_in);;
    h <- call (delayed [m_x e; m_y e; m_z e; m_energy e; m_t e; m_label e; m_event e]);; six h (fun x y z en t l =>
    h <- call (s1_hits [x; y; z; en; t; l; m_name e; m_name_id e]);; six h (fun x y z en t l =>
    h <- call (active_hits [x; y; z; en; t; l; m_name e; m_name_id e]);; six h (fun xa ya za ena ta _ =>
    active <- call (any_active [ena]);;
    write t_active [m_event e; active];;
    if_selected r_active active (
      p <- call (electrons [xa; ya; za; ta; ena]);; five p (fun xp yp _ tp np =>
      bright <- call (enough_photons [np]);;
      write t_dark [m_event e; bright];;
      if_selected r_dark bright (
        b <- call (buffer_info [t; tp]);; two b (fun tmin length =>
        s1 <- call (s1_wfs [x; y; z; t; en; tmin; length]);;
        s2 <- call (s2_pmt [xp; yp; tp; np; tmin; length]);;
        pmts <- call (add_wfs [s1; s2]);;
        sipms <- call (s2_sipm [xp; yp; tp; np; tmin; length]);;
        b <- call (edges [pmts; sipms]);; two b (fun pmt_bins sipm_bins =>
        buffers_program false (m_event e) (m_time e) pmt_bins pmts sipm_bins sipms)))))))).
End SimulationCities.

Section CalibrationCities.
  Variables (process integrate_light integrate_dark binner sub_mode cal_mode cal_median : list V -> res V).
  Definition add_to (id : nat) (op : list V -> res V) (wf : V) : program unit :=
    i <- call (op [wf]);; h <- call (binner [i]);; act (Add id h).
  Definition spectra_event (wf : V) (e : waveforms) : program unit :=
    act (Count r_events_in);;
    wf <- call (process [wf]);;
    add_to r_spe integrate_light wf;;
    add_to r_dark integrate_dark wf;;
    row_event (w_run e) (w_event e) (w_time e).
  Definition phyllis_event (e : waveforms) : program unit := spectra_event (w_pmt e) e.
  Definition trude_event (e : waveforms) : program unit := spectra_event (w_sipm e) e.
  Definition berenice_event (e : waveforms) : program unit :=
    act (Count r_events_in);;
    add_to r_adc sub_mode (w_sipm e);;
    add_to r_mode cal_mode (w_sipm e);;
    add_to r_median cal_median (w_sipm e);;
    row_event (w_run e) (w_event e) (w_time e).
End CalibrationCities.

(** ---------- observations of a run ---------- *)
Definition writes_as (o : outcome (@obj V)) (l : list action) : Prop := forall t, calls t (o_trace o) = map Args (rows t l).
Definition raises_as (o : outcome (@obj V)) (e : option exc) : Prop := o_raised o = match e with Some (OtherExc c) => Some c | _ => None end.
Definition counts_as (o : outcome (@obj V)) (l : list action) (id : nat) : Prop := results id (o_trace o) = [RCount (counted id l)].
Definition selects_as (o : outcome (@obj V)) (l : list action) (id : nat) : Prop := results id (o_trace o) = [RPassed (selected id true l) (selected id false l)].
Definition lists_as (o : outcome (@obj V)) (l : list action) (id : nat) : Prop := results id (o_trace o) = [RAcc (Args (added id l))].
Definition sums_as (plus : V -> V -> V) (zeros : V) (o : outcome (@obj V)) (l : list action) (id : nat) : Prop := results id (o_trace o) = [RAcc (Obj (fold_left plus (added id l) zeros))].
(** the run of a city is that of its program on the events in the range *)
Definition runs_as {E} (p : E -> program unit) (range : option Z * option Z) (events : list E) (r : outcome (@obj V) + slice_arg_error) (results : outcome (@obj V) -> list action -> Prop) : Prop :=
  match r with
  | inl o => let (l, e) := for_each p (py_slice_z (fst range) (snd range) None events) in writes_as o l /\ raises_as o e /\ results o l
  | inr _ => exists z, (fst range = Some z \/ snd range = Some z) /\ (z < 0)%Z
  end.
End Spec.
