(** C73: each city does with every event in its range what a plain program does, and stops at the first event that fails *)
From Coq Require Import List Bool Arith ZArith String Lia Permutation.
Import ListNotations.
From Verif Require Import DataflowModel DataflowSpec LoopProofs CityModel CitySpec CityProofs CityDoes.

Ltac nodup := cbn; repeat (apply NoDup_cons; [let C := fresh in intros C; repeat (destruct C as [C|C]; [discriminate C|]); exact C|]); apply NoDup_nil.
(** the item is still a dictionary with the same values under these names *)
Definition keeps {V} (d : string -> option V) (names : list string) (y : @obj V) : Prop := exists d', y = Dict d' /\ forall n, In n names -> d' n = d n.
Ltac known := first [reflexivity | cbn; match goal with H : forall n, In n _ -> _ n = _ n |- _ => rewrite !H by (cbn; repeat first [left; reflexivity|right]); reflexivity end].
Ltac kept := first [exact I | eexists; split; [reflexivity|]; cbn [In]; intros ? ?; repeat match goal with H : _ \/ _ |- _ => destruct H as [<-|H] end; first [contradiction|reflexivity]].
Ltac lists H := match type of H with
  | List.length ?l = _ => repeat (destruct l as [|? l]; cbn [List.length] in H; try discriminate H); clear H
  end.
(** follow the components one after the other *)
Ltac follow := repeat lazymatch goal with
  | |- does (spy_count _ _) _ _ _ => simple eapply does_count
  | |- does (print_every _ _) _ _ _ => simple eapply does_print; [known|]
  | |- does (fmap _ _ _ _) _ _ _ => simple eapply does_fmap; [known|intros ?]
  | |- does (fmaps _ _ _ _) _ _ _ => simple eapply does_fmaps; [eassumption|known|let ws := fresh "ws" in let E := fresh "E" in intros ws E; lists E; cbn [two three four five six]]
  | |- does (NBranch (fsink _ _ _) _) _ _ _ => simple eapply does_write; [known|]
  | |- does (NBranch collect_numbers _) _ _ _ => simple eapply does_number; [known|]
  | |- does (cfilter _ _ _ _) _ _ _ => simple eapply does_filter; [known|try kept|]
  | |- does (NFork [_]) _ _ _ => simple eapply does_fork_last
  | |- does (NFork (fsink _ _ _ :: _)) _ _ _ => simple eapply does_fork_write; [known|]
  | |- does (NFork (collect_numbers :: _)) _ _ _ => simple eapply does_fork_number; [known|]
  | |- does (fsink _ _ _) _ _ _ => simple eapply does_sink; [known|try kept]
  | |- does collect_numbers _ _ _ => simple eapply does_numbers; [known|try kept]
  | |- does (pick _ _) _ _ _ => simple eapply does_pick; [known|try kept|]
  | |- does (not_none _ _ _) _ _ _ => simple eapply does_not_none; [known|try kept|]
  | |- does (collect _) _ _ _ => simple eapply does_collect; try kept
  | |- does (histogram _ _ _) _ _ _ => simple eapply does_add; try kept
  | |- does (NCount _) _ _ _ => simple eapply does_count_end; try kept
  | |- does (fmap0 _ _) _ _ _ => simple eapply does_fmap0; [try kept|intros ?]
  | |- does (fsink0 _ _) _ _ _ => simple eapply does_sink0; try kept
  | |- does (event_info _) _ _ _ => unfold event_info, row_event
  | |- does (NFork (event_info _ :: _)) _ _ _ => unfold event_info, row_event
  end.
Ltac results := cbn; intros o l H; repeat split;
  first [apply result_count|apply result_pass|apply result_list|apply result_sum]; apply H; cbn; repeat first [left; reflexivity|right].
Ltac by_program :=
  eapply runs_as_mono; [|apply city_program; [cbn; repeat split; intros; eexists; reflexivity|nodup|nodup|intros e; apply (does_same _ _ _ (fun _ => True)); intros; cbv [wf_item pmap_item hits_item sensors_item mchits_item items]]]; [results|].


Section C73.
Context {V : Type}.
Variable truth is_none : V -> bool.
Variable some_index : V.
Variable effect : nat -> list V -> option exc.
Notation operation := (list V -> res V).
Notation operations := (list V -> res (list V)).

Section Pmaps.
Variables (mask deconv_calibrate zero_suppress : operations) (deconv calibrate_sipms check_indices build_pmap check_pmap : operation).
Variables (mcrd_rebin charge_fluctuation sim_sipm discretize sum_pmts : operation).
Hypotheses (G1 : gives 2 mask) (G2 : gives 4 deconv_calibrate) (G3 : gives 3 zero_suppress).

Theorem C73_irene range events :
  runs_as (irene_event truth effect mask deconv_calibrate zero_suppress deconv calibrate_sipms check_indices build_pmap check_pmap) range events
    (city range (irene truth some_index effect mask deconv_calibrate zero_suppress deconv calibrate_sipms check_indices build_pmap check_pmap) (map wf_item events))
    (fun o l => counts_as o l r_events_in /\ counts_as o l r_events_out /\ lists_as o l r_evtnum_list /\ selects_as o l r_over_thr /\ selects_as o l r_full_pmap).
Proof using G1 G2 G3.
  by_program. cbv [irene pipe compute_pmaps pmaps_written rev app fold_left]. unfold irene_event, pmaps_program. follow.
Qed.

Theorem C73_hypathia range events :
  runs_as (hypathia_event truth effect mask zero_suppress calibrate_sipms check_indices build_pmap check_pmap mcrd_rebin charge_fluctuation sim_sipm discretize sum_pmts) range events
    (city range (hypathia truth some_index effect mask zero_suppress calibrate_sipms check_indices build_pmap check_pmap sim_sipm mcrd_rebin charge_fluctuation sum_pmts discretize) (map wf_item events))
    (fun o l => counts_as o l r_events_in /\ counts_as o l r_events_out /\ lists_as o l r_evtnum_list /\ selects_as o l r_over_thr /\ selects_as o l r_full_pmap).
Proof using G1 G3.
  by_program. cbv [hypathia pipe compute_pmaps pmaps_written rev app fold_left]. unfold hypathia_event, pmaps_program. follow.
Qed.
End Pmaps.

Section Hits.
Variables (classify passed pointlike sipms_as_hits enough_hits merge_nn correct cluster : operation).
Variables (drop_external threshold_hits has_hits copy_energy sort_hits has_tracks summary change_type : operation) (tracks : operations).
Variables (cut_sensors drop_sensors nonempty deconvolve add_info : operation).

Theorem C73_dorothea range events :
  runs_as (dorothea_event truth effect classify passed pointlike) range events
    (city range (dorothea truth some_index effect classify passed pointlike) (map pmap_item events))
    (fun o l => counts_as o l r_events_in /\ counts_as o l r_events_out /\ lists_as o l r_evtnum_list /\ selects_as o l r_selection).
Proof using.
  by_program. cbv [dorothea pipe rev app fold_left]. unfold dorothea_event, classified. follow.
Qed.

Theorem C73_sophronia range events :
  runs_as (sophronia_event truth effect classify passed pointlike sipms_as_hits enough_hits merge_nn correct cluster) range events
    (city range (sophronia truth some_index effect classify passed sipms_as_hits enough_hits merge_nn correct cluster pointlike) (map pmap_item events))
    (fun o l => counts_as o l r_events_in /\ counts_as o l r_events_out /\ lists_as o l r_evtnum_list /\ selects_as o l r_selection /\ selects_as o l r_hits_selection).
Proof using.
  by_program. cbv [sophronia pipe rev app fold_left]. unfold sophronia_event, classified. follow.
  match goal with |- does _ (Dict ?d) _ _ => apply (does_fork _ _ _ _ _ (keeps d ["pmap"; "selector_output"; "event_number"; "timestamp"; "run_number"]%string)) end; [follow|]. intros y (d' & -> & H).
  match goal with |- does _ (Dict ?d) _ _ => apply (does_fork _ _ _ _ _ (keeps d ["event_number"; "timestamp"; "run_number"]%string)) end; [follow|]. intros y (d'' & -> & H'). 
  assert (K : forall n, In n ["event_number"; "timestamp"; "run_number"]%string -> d'' n = _ n) by (intros n Hn; rewrite H' by assumption; apply H; do 2 right; exact Hn). clear H H'. follow.
Qed.
Lemma tracks_does (e : hits_of) hits (d : string -> option V) : gives 3 tracks -> d "hits"%string = Some hits -> d "event_number"%string = Some (h_event e) ->
  does (compute_tracks truth effect has_hits copy_energy sort_hits has_tracks summary change_type tracks) (Dict d)
    (tracks_program truth effect has_hits copy_energy sort_hits has_tracks summary change_type tracks e hits) (keeps d ["event_number"; "run_number"; "timestamp"; "kdst"]%string).
Proof using.
  intros G3 E1 E2. cbv [compute_tracks pipe rev app fold_left]. unfold tracks_program.
  assert (K : forall n, In n ["hits"; "event_number"]%string -> d n = (fun n => if String.eqb n "hits" then Some hits else if String.eqb n "event_number" then Some (h_event e) else None) n).
  { intros n [<-|[<-|[]]]; assumption. }
  follow.
  match goal with |- does _ (Dict ?d) _ _ => apply (does_fork _ _ _ _ _ (keeps d ["event_number"; "topology_info"; "paolina_hits"; "topology_passed"; "run_number"; "timestamp"; "kdst"]%string)) end; [follow|].
  intros y (d' & -> & H). clear K.
  assert (K : forall n, In n ["event_number"; "topology_info"; "paolina_hits"; "topology_passed"]%string -> d' n = (fun n => if String.eqb n "event_number" then Some (h_event e) else
     if String.eqb n "topology_info" then Some v1 else if String.eqb n "paolina_hits" then Some v4 else if String.eqb n "topology_passed" then Some v5 else None) n).
  { intros n [<-|[<-|[<-|[<-|[]]]]]; (rewrite H; [|repeat first [left; reflexivity|right]]); [exact E2|reflexivity..]. }
  assert (L : keeps d ["event_number"; "run_number"; "timestamp"; "kdst"]%string (Dict d')).
  { exists d'. split; [reflexivity|]. intros n [<-|[<-|[<-|[<-|[]]]]]; (rewrite H; [reflexivity|repeat first [left; reflexivity|right]]). }
  clear H. follow.
  apply (does_fork _ _ _ _ _ (eq (Dict d'))); [follow; reflexivity|]. intros y <-. follow; exact L.
Qed.
Hypothesis G3 : gives 3 tracks.

Theorem C73_esmeralda range events :
  runs_as (esmeralda_event truth effect correct drop_external threshold_hits has_hits copy_energy sort_hits has_tracks summary change_type tracks) range events
    (city range (esmeralda truth some_index effect correct drop_external threshold_hits has_hits copy_energy sort_hits has_tracks summary change_type tracks) (map hits_item events))
    (fun o l => counts_as o l r_events_in /\ counts_as o l r_events_out /\ lists_as o l r_evtnum_list /\ selects_as o l r_hits_passed /\ selects_as o l r_topology).
Proof using G3.
  by_program. cbv [esmeralda pipe rev app fold_left]. unfold esmeralda_event. follow.
  eapply does_fork; [apply tracks_does; [exact G3|reflexivity|reflexivity]|]. intros y (d' & -> & H). follow.
  apply (does_fork _ _ _ _ _ (eq (Obj (h_event e)))); [follow; reflexivity|]. intros y <-. follow.
Qed.

Theorem C73_isaura range events :
  runs_as (isaura_event truth is_none effect has_hits copy_energy sort_hits has_tracks summary change_type tracks) range events
    (city range (isaura truth is_none some_index effect has_hits copy_energy sort_hits has_tracks summary change_type tracks) (map hits_item events))
    (fun o l => counts_as o l r_events_in /\ counts_as o l r_events_out /\ lists_as o l r_evtnum_list /\ selects_as o l r_hits_passed /\ selects_as o l r_topology).
Proof using G3.
  by_program. cbv [isaura pipe rev app fold_left]. unfold isaura_event, kdst_if_any. follow.
  eapply does_fork; [apply tracks_does; [exact G3|reflexivity|reflexivity]|]. intros y (d' & -> & H). follow.
Qed.

Theorem C73_beersheba range events :
  runs_as (beersheba_event truth is_none effect correct threshold_hits cut_sensors drop_sensors nonempty deconvolve add_info) range events
    (city range (beersheba truth is_none some_index effect correct threshold_hits cut_sensors drop_sensors nonempty deconvolve add_info) (map hits_item events))
    (fun o l => counts_as o l r_events_in /\ counts_as o l r_events_out /\ lists_as o l r_evtnum_list /\ selects_as o l r_events_pass).
Proof using.
  by_program. cbv [beersheba pipe rev app fold_left]. unfold beersheba_event, kdst_if_any. follow.
  match goal with |- does _ (Dict ?d) _ _ => apply (does_fork _ _ _ _ _ (eq (Dict d))) end; [follow; reflexivity|]. intros y <-. follow.
Qed.
End Hits.

Section Simulation.
Variables (sim_pmt : operations) (sim_sipm emulate_trigger trigger_pass deconv : operation).
Variables (has_response find_signal has_signal trigger_times calc_buffers order : operation) (time_extremes bin_pmts bin_sipms : operations).
Variables (any_active enough_photons s1_wfs s2_pmt s2_sipm add_wfs : operation) (delayed s1_hits active_hits electrons buffer_info edges : operations).

Theorem C73_diomira range events : gives 2 sim_pmt ->
  runs_as (diomira_event truth effect sim_pmt sim_sipm emulate_trigger trigger_pass) range events
    (city range (diomira truth some_index effect sim_pmt sim_sipm emulate_trigger trigger_pass) (map wf_item events))
    (fun o l => counts_as o l r_events_in /\ lists_as o l r_evtnum_list /\ selects_as o l r_selection).
Proof using.
  intros G. by_program. cbv [diomira pipe rev app fold_left]. unfold diomira_event. follow.
Qed.

Theorem C73_isidora range events :
  runs_as (isidora_event effect deconv) range events
    (city range (isidora some_index effect deconv) (map wf_item events))
    (fun o l => counts_as o l r_events_in /\ lists_as o l r_evtnum_list).
Proof using.
  by_program. cbv [isidora pipe rev app fold_left]. unfold isidora_event. follow.
  match goal with |- does _ (Dict ?d) _ _ => apply (does_fork _ _ _ _ _ (keeps d ["event_number"; "run_number"; "timestamp"; "sipm"]%string)) end; [follow|]. intros y (d' & -> & H). follow.
Qed.

Theorem C73_buffy range events : gives 2 time_extremes -> gives 2 bin_pmts -> gives 2 bin_sipms ->
  runs_as (buffy_event truth effect has_response find_signal has_signal trigger_times calc_buffers order time_extremes bin_pmts bin_sipms) range events
    (city range (buffy truth some_index effect has_response find_signal has_signal trigger_times calc_buffers order time_extremes bin_pmts bin_sipms) (map sensors_item events))
    (fun o l => counts_as o l r_events_in /\ lists_as o l r_evtnum_list /\ selects_as o l r_events_pass /\ selects_as o l r_signal).
Proof using.
  intros G1 G2 G4. by_program. cbv [buffy save_buffers pipe rev app fold_left]. unfold buffy_event, buffers_program. follow.
Qed.

Theorem C73_detsim range events : gives 6 delayed -> gives 6 s1_hits -> gives 6 active_hits -> gives 5 electrons -> gives 2 buffer_info -> gives 2 edges ->
  runs_as (detsim_event truth effect find_signal has_signal trigger_times calc_buffers order any_active enough_photons s1_wfs s2_pmt s2_sipm add_wfs delayed s1_hits active_hits electrons buffer_info edges) range events
    (city range (detsim truth some_index effect find_signal has_signal trigger_times calc_buffers order any_active enough_photons s1_wfs s2_pmt s2_sipm add_wfs delayed s1_hits active_hits electrons buffer_info edges) (map mchits_item events))
    (fun o l => counts_as o l r_events_in /\ lists_as o l r_evtnum_list /\ selects_as o l r_active /\ selects_as o l r_dark /\ selects_as o l r_signal).
Proof using.
  intros G1 G2 G4 G5 G6 G7. by_program. cbv [detsim save_buffers pipe rev app fold_left]. unfold detsim_event, buffers_program. follow.
Qed.
End Simulation.

Section Calibration.
Variables (process integrate_light integrate_dark binner sub_mode cal_mode cal_median : operation) (plus : V -> V -> V) (zeros : V).

Lemma add_does id op name wf (d : string -> option V) : d name = Some wf ->
  does (pick name (fmap0 op (fmap0 binner (histogram plus zeros id)))) (Dict d) (add_to binner id op wf) (eq (Dict d)).
Proof using. intros E. unfold add_to. eapply does_pick; [exact E|reflexivity|]. follow. Qed.

Theorem C73_phyllis range events :
  runs_as (phyllis_event effect process integrate_light integrate_dark binner) range events
    (city range (phyllis some_index effect process integrate_light integrate_dark binner plus zeros) (map wf_item events))
    (fun o l => counts_as o l r_events_in /\ sums_as plus zeros o l r_spe /\ sums_as plus zeros o l r_dark).
Proof using.
  by_program. cbv [phyllis spectra pipe rev app fold_left]. unfold phyllis_event, spectra_event. follow.
  eapply does_fork; [apply add_does; reflexivity|]. intros y <-. eapply does_fork; [apply add_does; reflexivity|]. intros y <-. follow.
Qed.

Theorem C73_trude range events :
  runs_as (trude_event effect process integrate_light integrate_dark binner) range events
    (city range (trude some_index effect process integrate_light integrate_dark binner plus zeros) (map wf_item events))
    (fun o l => counts_as o l r_events_in /\ sums_as plus zeros o l r_spe /\ sums_as plus zeros o l r_dark).
Proof using.
  by_program. cbv [trude spectra pipe rev app fold_left]. unfold trude_event, spectra_event. follow.
  eapply does_fork; [apply add_does; reflexivity|]. intros y <-. eapply does_fork; [apply add_does; reflexivity|]. intros y <-. follow.
Qed.

Theorem C73_berenice range events :
  runs_as (berenice_event effect binner sub_mode cal_mode cal_median) range events
    (city range (berenice some_index effect binner sub_mode cal_mode cal_median plus zeros) (map wf_item events))
    (fun o l => counts_as o l r_events_in /\ sums_as plus zeros o l r_adc /\ sums_as plus zeros o l r_mode /\ sums_as plus zeros o l r_median).
Proof using.
  by_program. cbv [berenice pipe rev app fold_left]. unfold berenice_event. follow.
  do 3 (eapply does_fork; [apply add_does; reflexivity|]; intros y <-). follow.
Qed.
End Calibration.
End C73.
Print Assumptions C73_irene.
Print Assumptions C73_detsim.
Print Assumptions C73_berenice.
Print Assumptions C73_hypathia.
Print Assumptions C73_dorothea.
Print Assumptions C73_sophronia.
Print Assumptions C73_esmeralda.
Print Assumptions C73_isaura.
Print Assumptions C73_beersheba.
Print Assumptions C73_diomira.
Print Assumptions C73_isidora.
Print Assumptions C73_buffy.
Print Assumptions C73_phyllis.
Print Assumptions C73_trude.
