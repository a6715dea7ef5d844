(** Model of the networks of components of the cities: the push(source, pipe, result) of each city.
    The data are arbitrary Python objects and the operations arbitrary functions that may raise an exception;
    what is modelled is which operation is applied to which data, in which order, what is written and what is counted. *)
From Coq Require Import List Bool Arith ZArith String.
Import ListNotations.
From Verif Require Import DataflowModel.
Local Open Scope string_scope.

(** the tables of the output files and the results of the cities *)
Notation t_events := 0%nat (only parsing).          Notation t_trigger := 1%nat (only parsing).       Notation t_pmaps := 2%nat (only parsing).       Notation t_indices_filter := 3%nat (only parsing).
Notation t_pmap_filter := 4%nat (only parsing).     Notation t_s12_filter := 5%nat (only parsing).    Notation t_kdst := 6%nat (only parsing).        Notation t_hits := 7%nat (only parsing).
Notation t_valid_hit := 8%nat (only parsing).       Notation t_hits_filter := 9%nat (only parsing).   Notation t_summary := 10%nat (only parsing).    Notation t_topology_filter := 11%nat (only parsing).
Notation t_tracks := 12%nat (only parsing).         Notation t_deconv := 13%nat (only parsing).       Notation t_nohits_filter := 14%nat (only parsing). Notation t_pmt := 15%nat (only parsing).
Notation t_blr := 16%nat (only parsing).            Notation t_sipm := 17%nat (only parsing).         Notation t_trigger_filter := 18%nat (only parsing). Notation t_detected := 19%nat (only parsing).
Notation t_signal_filter := 20%nat (only parsing).  Notation t_buffers := 21%nat (only parsing).      Notation t_active := 22%nat (only parsing).     Notation t_dark := 23%nat (only parsing).
Notation r_events_in := 30%nat (only parsing).      Notation r_events_out := 31%nat (only parsing).   Notation r_evtnum_list := 32%nat (only parsing). Notation r_over_thr := 33%nat (only parsing).
Notation r_full_pmap := 34%nat (only parsing).      Notation r_selection := 35%nat (only parsing).    Notation r_hits_selection := 36%nat (only parsing). Notation r_hits_passed := 37%nat (only parsing).
Notation r_topology := 38%nat (only parsing).       Notation r_events_pass := 39%nat (only parsing).  Notation r_signal := 40%nat (only parsing).     Notation r_active := 41%nat (only parsing).
Notation r_spe := 42%nat (only parsing).            Notation r_dark := 43%nat (only parsing).         Notation r_adc := 44%nat (only parsing).        Notation r_mode := 45%nat (only parsing).
Notation r_median := 46%nat (only parsing).

(** for dataflow.py 52-84: map *)
Definition KeyError : exc := OtherExc 1.
(** for dataflow.py 52-84: map *)
Definition TypeError : exc := OtherExc 2.

Section City.
Context {V : Type}.
(** bool(x), x is None, and the number printed by print_every *)
Variable truth is_none : V -> bool.
Variable some_index : V.

(** what flows: a dictionary, one of its values, or several of them *)
Inductive obj := Dict (d : string -> option V) | Obj (v : V) | Args (l : list V).
Notation piece := (node obj -> node obj).
Notation operation := (list V -> res V).
Notation operations := (list V -> res (list V)).

(** dataflow.py:76, 140, 178, 248: (data[arg] for arg in args) *)
Fixpoint get (names : list string) (d : string -> option V) : option (list V) :=
  match names with
  | [] => Some []
  | n :: names => match d n, get names d with Some v, Some vs => Some (v :: vs) | _, _ => None end
  end.
(** dataflow.py:80-81: for name, value in zip(out, trans): data[name] = value *)
Fixpoint put (names : list string) (vs : list V) (d : string -> option V) : string -> option V :=
  match names, vs with
  | n :: names, v :: vs => put names vs (fun k => if String.eqb k n then Some v else d k)
  | _, _ => d
  end.
(** for dataflow.py 52-84: map *)
Definition on_dict {A} (o : obj) (names : list string) (f : (string -> option V) -> list V -> res A) : res A :=
  match o with
  | Dict d => match get names d with Some vs => f d vs | None => Raise KeyError end
  | _ => Raise TypeError
  end.

(** dataflow.py:52-84: map with args and out; one name in out, or several *)
Definition fmap (args : list string) (out : string) (op : operation) : piece :=
  NUpd (fun o => on_dict o args (fun d vs => match op vs with Raise e => Raise e | Ret v => Ret (Dict (put [out] [v] d)) end)).
(** for irene.py 98-165 *)
Definition fmaps (args outs : list string) (op : operations) : piece :=
  NUpd (fun o => on_dict o args (fun d vs => match op vs with Raise e => Raise e | Ret ws => Ret (Dict (put outs ws d)) end)).
(** dataflow.py:59-63: map without names *)
Definition fmap0 (op : operation) : piece :=
  NMap (fun o => match o with Obj v => match op [v] with Raise e => Raise e | Ret w => Ret (Obj w) end | _ => Raise TypeError end).
(** dataflow.py:320-323: a string picks a value *)
Definition pick (name : string) : piece := NMap (fun o => on_dict o [name] (fun _ vs => match vs with v :: _ => Ret (Obj v) | [] => Raise TypeError end)).
(** dataflow.py:149-187: count_filter(bool, args = name), and filter with a predicate on one name (124-144) *)
Definition cfilter (id : nat) (name : string) : piece := NCFilter id (fun o => on_dict o [name] (fun _ vs => Ret (forallb truth vs))).
(** for isaura.py 90-120 *)
Definition not_none (name : string) : piece := NFilter (fun o => on_dict o [name] (fun _ vs => Ret (negb (existsb is_none vs)))).
(** dataflow.py:237-250: sink with args. The selection of the arguments is a map in front of the sink; [effect] says whether the writer raises. *)
Variable effect : nat -> list V -> option exc.
(** for irene.py 98-165 *)
Definition fsink (id : nat) (args : list string) : node obj :=
  NMap (fun o => on_dict o args (fun _ vs => Ret (Args vs))) (NSink id (fun o => match o with Args vs => effect id vs | _ => None end)).
(** components.py:1689: a sink without args *)
Definition fsink0 (id : nat) : node obj :=
  NMap (fun o => match o with Obj v => Ret (Args [v]) | _ => Raise TypeError end) (NSink id (fun o => match o with Args vs => effect id vs | _ => None end)).
(** components.py:330-335: collect *)
Definition collect (id : nat) : node obj :=
  NReduce id (fun acc o => Ret (match acc, o with Args l, Obj v => Args (l ++ [v]) | _, _ => acc end)) (Args []).
(** components.py:294-298: print_every; the index of the event is stored in the item. Not modelled: what is printed; the index is an arbitrary value. *)
Definition print_every : piece := NUpd (fun o => on_dict o ["event_number"] (fun d _ => Ret (Dict (put ["index"] [some_index] d)))).
(** dataflow.py:361-362: a tuple in a fork is a pipe *)
Notation branch p := (NBranch p).

(** for irene.py 98-165 *)
Definition event_info : node obj := fsink t_events ["run_number"; "event_number"; "timestamp"].
(** for irene.py 98-165 *)
Definition collect_numbers : node obj := pipe [pick "event_number"] (collect r_evtnum_list).

(** components.py:568-613, 653-657, 747-751, 562-565, 695-704: the items given by the readers *)
Definition items (l : list (string * V)) : obj := Dict (put (map fst l) (map snd l) (fun _ => None)).
(** for components.py 568-613, 653-657, 747-751, 562-565, 695-704 *)
Record waveforms := { w_pmt : V; w_sipm : V; w_run : V; w_event : V; w_time : V; w_type : V; w_channels : V }.
(** with components.py 568-613, 653-657, 747-751, 562-565, 695-704 *)
Definition wf_item (e : waveforms) : obj := items [("pmt", w_pmt e); ("sipm", w_sipm e); ("run_number", w_run e); ("event_number", w_event e); ("timestamp", w_time e);
                                                   ("trigger_type", w_type e); ("trigger_channels", w_channels e)].
(** for components.py 568-613, 653-657, 747-751, 562-565, 695-704 *)
Record pmap_of := { p_pmap : V; p_run : V; p_event : V; p_time : V }.
(** with components.py 568-613, 653-657, 747-751, 562-565, 695-704 *)
Definition pmap_item (e : pmap_of) : obj := items [("pmap", p_pmap e); ("run_number", p_run e); ("event_number", p_event e); ("timestamp", p_time e)].
(** for components.py 568-613, 653-657, 747-751, 562-565, 695-704 *)
Record hits_of := { h_hits : V; h_kdst : V; h_run : V; h_event : V; h_time : V }.
(** with components.py 568-613, 653-657, 747-751, 562-565, 695-704 *)
Definition hits_item (e : hits_of) : obj := items [("hits", h_hits e); ("kdst", h_kdst e); ("run_number", h_run e); ("event_number", h_event e); ("timestamp", h_time e)].
(** for components.py 568-613, 653-657, 747-751, 562-565, 695-704 *)
Record sensors_of := { s_event : V; s_time : V; s_pmt : V; s_sipm : V }.
(** with components.py 568-613, 653-657, 747-751, 562-565, 695-704 *)
Definition sensors_item (e : sensors_of) : obj := items [("event_number", s_event e); ("timestamp", s_time e); ("pmt_resp", s_pmt e); ("sipm_resp", s_sipm e)].
(** for components.py 568-613, 653-657, 747-751, 562-565, 695-704 *)
Record mchits_of := { m_event : V; m_x : V; m_y : V; m_z : V; m_energy : V; m_t : V; m_label : V; m_time : V; m_name : V; m_name_id : V }.
(** with components.py 568-613, 653-657, 747-751, 562-565, 695-704 *)
Definition mchits_item (e : mchits_of) : obj := items [("event_number", m_event e); ("x", m_x e); ("y", m_y e); ("z", m_z e); ("energy", m_energy e); ("time", m_t e); ("label", m_label e);
                                                       ("timestamp", m_time e); ("name", m_name e); ("name_id", m_name_id e)].

(** ---------- the operations ---------- *)
Variables (mask deconv_calibrate zero_suppress : operations) (deconv calibrate_sipms check_indices build_pmap check_pmap : operation).
Variables (classify passed sipms_as_hits enough_hits merge_nn correct cluster pointlike : operation).
Variables (drop_external threshold_hits has_hits copy_energy sort_hits has_tracks summary change_type : operation) (tracks : operations).
Variables (cut_sensors drop_sensors nonempty deconvolve add_info : operation).
Variables (sim_pmt : operations) (sim_sipm emulate_trigger trigger_pass : operation).
Variables (mcrd_rebin charge_fluctuation sum_pmts discretize : operation).
Variables (has_response find_signal has_signal trigger_times calc_buffers order : operation) (time_extremes bin_pmts bin_sipms : operations).
Variables (any_active enough_photons s1_wfs s2_pmt s2_sipm add_wfs : operation) (delayed s1_hits active_hits electrons buffer_info edges : operations).
Variables (process integrate_light integrate_dark binner sub_mode cal_mode cal_median : operation) (plus : V -> V -> V) (zeros : V).

(** components.py:1300-1346: compute_and_write_pmaps *)
Definition compute_pmaps : list piece :=
  [ fmap ["s1_indices"; "s2_indices"] "indices_pass" check_indices
  ; branch (fsink t_indices_filter ["event_number"; "indices_pass"])
  ; cfilter r_over_thr "indices_pass"
  ; fmap ["sipm"] "sipm" calibrate_sipms
  ; fmap ["ccwfs"; "s1_indices"; "s2_indices"; "sipm"] "pmap" build_pmap
  ; fmap ["pmap"] "pmaps_pass" check_pmap
  ; branch (fsink t_pmap_filter ["event_number"; "pmaps_pass"])
  ; cfilter r_full_pmap "pmaps_pass"
  ; branch (fsink t_pmaps ["pmap"; "event_number"]) ].
(** for irene.py 98-165 *)
Definition pmaps_written : node obj :=
  pipe [spy_count r_events_out; branch collect_numbers] (NFork [event_info; fsink t_trigger ["trigger_type"; "trigger_channels"]]).

(** irene.py:98-165, after the slice. *)
Definition irene : node obj :=
  pipe ([ print_every; spy_count r_events_in
        ; fmaps ["pmt"; "sipm"] ["pmt"; "sipm"] mask
        ; fmap ["pmt"] "cwf" deconv
        ; fmaps ["cwf"] ["ccwfs"; "ccwfs_maw"; "cwf_sum"; "cwf_sum_maw"] deconv_calibrate
        ; fmaps ["cwf_sum"; "cwf_sum_maw"] ["s1_indices"; "s2_indices"; "s2_energies"] zero_suppress ] ++ compute_pmaps) pmaps_written.

(** hypathia.py:87-169 *)
Definition hypathia : node obj :=
  pipe ([ print_every; spy_count r_events_in
        ; fmap ["pmt"] "rwf" mcrd_rebin
        ; fmap ["rwf"] "ccwfs" charge_fluctuation
        ; fmap ["sipm"] "sipm" sim_sipm
        ; fmap ["sipm"] "sipm" discretize
        ; fmaps ["pmt"; "sipm"] ["pmt"; "sipm"] mask
        ; fmap ["ccwfs"] "pmt" sum_pmts
        ; fmaps ["pmt"; "pmt"] ["s1_indices"; "s2_indices"; "s2_energies"] zero_suppress ] ++ compute_pmaps) pmaps_written.

(** dorothea.py:99-141 *)
Definition dorothea : node obj :=
  pipe [ print_every; spy_count r_events_in
       ; fmap ["pmap"] "selector_output" classify
       ; fmap ["selector_output"] "pmap_passed" passed
       ; branch (fsink t_s12_filter ["event_number"; "pmap_passed"])
       ; cfilter r_selection "pmap_passed"
       ; spy_count r_events_out
       ; fmap ["pmap"; "selector_output"; "event_number"; "timestamp"] "pointlike_event" pointlike ]
       (NFork [collect_numbers; fsink t_kdst ["pointlike_event"]; event_info]).

(** sophronia.py:153-242 *)
Definition sophronia : node obj :=
  pipe [ print_every; spy_count r_events_in
       ; fmap ["pmap"] "selector_output" classify
       ; fmap ["selector_output"] "pmap_passed" passed
       ; branch (fsink t_s12_filter ["event_number"; "pmap_passed"])
       ; cfilter r_selection "pmap_passed"
       ; spy_count r_events_out ]
       (NFork [ pipe [fmap ["pmap"; "selector_output"; "event_number"; "timestamp"] "pointlike_event" pointlike] (fsink t_kdst ["pointlike_event"])
              ; pipe [ fmap ["pmap"; "selector_output"; "event_number"; "timestamp"] "hits" sipms_as_hits
                     ; fmap ["hits"] "enough_valid_hits" enough_hits
                     ; branch (fsink t_valid_hit ["event_number"; "enough_valid_hits"])
                     ; cfilter r_hits_selection "enough_valid_hits"
                     ; fmap ["hits"] "hits" merge_nn; fmap ["hits"] "hits" correct; fmap ["hits"] "hits" cluster ] (fsink t_hits ["hits"])
              ; collect_numbers
              ; event_info ]).

(** components.py:1641-1704: compute_and_write_tracks_info *)
Definition compute_tracks : node obj :=
  pipe [ fmap ["hits"] "hits_passed" has_hits
       ; branch (fsink t_hits_filter ["event_number"; "hits_passed"])
       ; cfilter r_hits_passed "hits_passed"
       ; fmap ["hits"] "Ep_hits" copy_energy
       ; fmaps ["Ep_hits"] ["topology_info"; "paolina_hits"; "out_of_map"] tracks
       ; fmap ["paolina_hits"] "paolina_hits" sort_hits
       ; fmap ["topology_info"] "topology_passed" has_tracks ]
       (NFork [ pipe [fmap ["event_number"; "topology_info"; "paolina_hits"; "out_of_map"] "event_info" summary] (fsink t_summary ["event_info"])
              ; fsink t_topology_filter ["event_number"; "topology_passed"]
              ; pipe [pick "paolina_hits"; fmap0 change_type] (fsink0 t_hits)
              ; pipe [cfilter r_topology "topology_passed"] (fsink t_tracks ["topology_info"]) ]).

(** esmeralda.py:148-190 *)
Definition esmeralda : node obj :=
  pipe [ print_every; spy_count r_events_in
       ; fmap ["hits"] "hits" correct; fmap ["hits"] "hits" drop_external; fmap ["hits"] "hits" threshold_hits ]
       (NFork [ compute_tracks; fsink t_kdst ["kdst"]; event_info
              ; pipe [pick "event_number"] (NFork [collect r_evtnum_list; NCount r_events_out]) ]).

(** isaura.py:90-120 *)
Definition isaura : node obj :=
  pipe [ print_every; spy_count r_events_in; branch collect_numbers; spy_count r_events_out ]
       (NFork [ compute_tracks; event_info; pipe [not_none "kdst"] (fsink t_kdst ["kdst"]) ]).

(** beersheba.py:489-553 *)
Definition beersheba : node obj :=
  pipe [ print_every; spy_count r_events_in
       ; fmap ["hits"] "hits" correct; fmap ["hits"] "hits" threshold_hits
       ; branch (fsink t_hits ["hits"])
       ; fmap ["hits"] "hits" cut_sensors; fmap ["hits"] "hits" drop_sensors
       ; fmap ["hits"] "hits_passed_no_hits" nonempty
       ; branch (fsink t_nohits_filter ["event_number"; "hits_passed_no_hits"])
       ; cfilter r_events_pass "hits_passed_no_hits"
       ; fmap ["hits"] "deconv_dst" deconvolve
       ; fmap ["timestamp"; "deconv_dst"] "deconv_dst" add_info
       ; spy_count r_events_out; branch collect_numbers ]
       (NFork [ fsink t_deconv ["deconv_dst"]; pipe [not_none "kdst"] (fsink t_kdst ["kdst"]); event_info ]).

(** diomira.py:86-156 *)
Definition diomira : node obj :=
  pipe [ spy_count r_events_in; print_every
       ; fmaps ["pmt"] ["pmt_sim"; "blr_sim"] sim_pmt
       ; fmap ["pmt_sim"] "trigger_sim" emulate_trigger
       ; fmap ["trigger_sim"] "trigger_pass" trigger_pass
       ; branch (fsink t_trigger_filter ["event_number"; "trigger_pass"])
       ; cfilter r_selection "trigger_pass"
       ; fmap ["sipm"] "sipm_sim" sim_sipm
       ; branch collect_numbers ]
       (NFork [ fsink t_pmt ["pmt_sim"]; fsink t_blr ["blr_sim"]; fsink t_sipm ["sipm_sim"]; event_info ]).

(** isidora.py:54-78 *)
Definition isidora : node obj :=
  pipe [ spy_count r_events_in; print_every; branch collect_numbers ]
       (NFork [ pipe [fmap ["pmt"] "cwf" deconv] (fsink t_pmt ["cwf"]); fsink t_sipm ["sipm"]; event_info ]).

(** components.py:1375-1434: calculate_and_save_buffers, with and without reordering of the sensors *)
Definition save_buffers (with_order : bool) : list piece :=
  [ fmap ["pmt_bin_wfs"] "pulses" find_signal
  ; fmap ["pulses"] "passed_signal" has_signal
  ; branch (fsink t_signal_filter ["event_number"; "passed_signal"])
  ; cfilter r_signal "passed_signal"
  ; fmap ["pulses"; "timestamp"; "pmt_bins"] "evt_times" trigger_times
  ; fmap ["pulses"; "pmt_bins"; "pmt_bin_wfs"; "sipm_bins"; "sipm_bin_wfs"] "buffers" calc_buffers ] ++
  (if with_order then [ fmap ["pmt_bin_wfs"; "sipm_bin_wfs"; "buffers"] "ordered_buffers" order
                      ; branch (fsink t_buffers ["event_number"; "evt_times"; "ordered_buffers"]) ]
   else [ branch (fsink t_buffers ["event_number"; "evt_times"; "buffers"]) ]).

(** buffy.py:77-141 *)
Definition buffy : node obj :=
  pipe ([ spy_count r_events_in; print_every
        ; fmap ["pmt_resp"; "sipm_resp"] "event_passed" has_response
        ; branch (fsink t_detected ["event_number"; "event_passed"])
        ; cfilter r_events_pass "event_passed"
        ; fmaps ["pmt_resp"; "sipm_resp"] ["min_time"; "max_time"] time_extremes
        ; fmaps ["pmt_resp"; "min_time"; "max_time"] ["pmt_bins"; "pmt_bin_wfs"] bin_pmts
        ; fmaps ["sipm_resp"; "min_time"; "max_time"] ["sipm_bins"; "sipm_bin_wfs"] bin_sipms ] ++ save_buffers true ++ [pick "event_number"]) (collect r_evtnum_list).

(** detsim.py:187-287 *)
Definition detsim : node obj :=
  let hits := ["x"; "y"; "z"; "energy"; "time"; "label"; "name"; "name_id"] in
  let photons := ["x_ph"; "y_ph"; "times_ph"; "nphotons"; "tmin"; "buffer_length"] in
  pipe ([ spy_count r_events_in; print_every
        ; fmaps ["x"; "y"; "z"; "energy"; "time"; "label"; "event_number"] ["x"; "y"; "z"; "energy"; "time"; "label"] delayed
        ; fmaps hits hits s1_hits
        ; fmaps hits ["x_a"; "y_a"; "z_a"; "energy_a"; "time_a"; "labels_a"] active_hits
        ; fmap ["energy_a"] "passed_active" any_active
        ; branch (fsink t_active ["event_number"; "passed_active"])
        ; cfilter r_active "passed_active"
        ; fmaps ["x_a"; "y_a"; "z_a"; "time_a"; "energy_a"] ["x_ph"; "y_ph"; "z_ph"; "times_ph"; "nphotons"] electrons
        ; fmap ["nphotons"] "enough_photons" enough_photons
        ; branch (fsink t_dark ["event_number"; "enough_photons"])
        ; cfilter r_dark "enough_photons"
        ; fmaps ["time"; "times_ph"] ["tmin"; "buffer_length"] buffer_info
        ; fmap ["x"; "y"; "z"; "time"; "energy"; "tmin"; "buffer_length"] "s1_pmt_waveforms" s1_wfs
        ; fmap photons "s2_pmt_waveforms" s2_pmt
        ; fmap ["s1_pmt_waveforms"; "s2_pmt_waveforms"] "pmt_bin_wfs" add_wfs
        ; fmap photons "sipm_bin_wfs" s2_sipm
        ; fmaps ["pmt_bin_wfs"; "sipm_bin_wfs"] ["pmt_bins"; "sipm_bins"] edges ] ++ save_buffers false ++ [pick "event_number"]) (collect r_evtnum_list).

(** fl.reduce(add, zeros) *)
Definition histogram (id : nat) : node obj := NReduce id (fun acc o => Ret (match acc, o with Obj a, Obj v => Obj (plus a v) | _, _ => acc end)) (Obj zeros).
(** phyllis.py:108-138, trude.py:95-125 *)
Definition spectra (wfs processed : string) : node obj :=
  pipe [ spy_count r_events_in; print_every; fmap [wfs] processed process ]
       (NFork [ pipe [pick processed; fmap0 integrate_light; fmap0 binner] (histogram r_spe)
              ; pipe [pick processed; fmap0 integrate_dark; fmap0 binner] (histogram r_dark)
              ; event_info ]).
(** phyllis.py 69-145: phyllis *)
Definition phyllis : node obj := spectra "pmt" "cwf".
(** trude.py 60-132: trude *)
Definition trude : node obj := spectra "sipm" "bls".
(** berenice.py:68-104 *)
Definition berenice : node obj :=
  pipe [ spy_count r_events_in; print_every ]
       (NFork [ pipe [pick "sipm"; fmap0 sub_mode; fmap0 binner] (histogram r_adc)
              ; pipe [pick "sipm"; fmap0 cal_mode; fmap0 binner] (histogram r_mode)
              ; pipe [pick "sipm"; fmap0 cal_median; fmap0 binner] (histogram r_median)
              ; event_info ]).

End City.
(** the event range in front of the network: fl.slice( *event_range, close_all = True) *)
Definition city {V} (range : option Z * option Z) (network : node (@obj V)) (events : list (@obj V)) : outcome (@obj V) + slice_arg_error :=
  match mk_slice_spec (fst range) (snd range) None true with inl sp => inl (run (NSlice sp network) events) | inr e => inr e end.
