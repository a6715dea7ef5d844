(** Model of the first cities of the chain over files: a run of diomira (invisible_cities/cities/diomira.py 66-162) and a run of irene
    (invisible_cities/cities/irene.py 96-173), with the reader of waveforms (ConfigModel.v) and the writers of their tables *)
From Coq Require Import String.
From Verif Require Import Base ConfigModel TablesModel PeaksModel BuffersModel PmapioModel CalibModel IreneModel NoiseModel HypaModel FeeModel TrigModel DioModel PreadModel.
Local Open Scope nat_scope.

(** an event of a file of waveforms: number and time, the waveforms, and the trigger *)
Notation rwf_event := (waveforms (Z * Q) (list (list Z)) (list (list Z)) Z (list Z)).
Notation mcrd_event := (waveforms (Z * Q) (list (list Q)) (list (list Q)) Z (list Z)).
Notation rwf_file := (h5file (Z * Q) (list (list Z)) (list (list Z)) Z (list Z)).
Notation mcrd_file := (h5file (Z * Q) (list (list Q)) (list (list Q)) Z (list Z)).

(** ---- diomira ---- *)
(** what diomira writes and counts: the rows of Filters/trigger, Run/runInfo, Run/events, RD/pmtrwf, RD/pmtblr, RD/sipmrwf, the list of event numbers and
    the numbers of events in and accepted *)
Record dio_tables := { dt_filter : list (Z * bool); dt_runs : list Z; dt_events : list (Z * Q); dt_rwf : list (list (list Z)); dt_blr : list (list (list Z)); dt_sipm : list (list (list Z));
                       dt_numbers : list Z; dt_in : nat; dt_passed : nat }.
(** for diomira.py 66-162 *)
Definition nothing_simulated : dio_tables := {| dt_filter := []; dt_runs := []; dt_events := []; dt_rwf := []; dt_blr := []; dt_sipm := []; dt_numbers := []; dt_in := 0; dt_passed := 0 |}.
(** diomira.py 137-156: the events, one after the other; [event i] simulates the event number i of the run, that has its own random numbers *)
Fixpoint diomira_all (event : nat -> list (list Q) -> list (list Q) -> result (option (list (list Z) * list (list Z) * list (list Z)))) (events : list mcrd_event) (o : dio_tables) : result dio_tables :=
  match events with
  | [] => Ok o
  | w :: events =>
    rbind (event (dt_in o) (w_pmt w) (w_sipm w)) (fun r =>
    diomira_all event events
      match r with
      | None => {| dt_filter := dt_filter o ++ [(fst (w_event w), false)]; dt_runs := dt_runs o; dt_events := dt_events o; dt_rwf := dt_rwf o; dt_blr := dt_blr o; dt_sipm := dt_sipm o;
                   dt_numbers := dt_numbers o; dt_in := S (dt_in o); dt_passed := dt_passed o |}
      | Some (rwf, blr, sipm) => {| dt_filter := dt_filter o ++ [(fst (w_event w), true)]; dt_runs := dt_runs o ++ [w_run w]; dt_events := dt_events o ++ [w_event w];
                   dt_rwf := dt_rwf o ++ [rwf]; dt_blr := dt_blr o ++ [blr]; dt_sipm := dt_sipm o ++ [sipm];
                   dt_numbers := dt_numbers o ++ [fst (w_event w)]; dt_in := S (dt_in o); dt_passed := S (dt_passed o) |}
      end)
  end.
(** diomira.py 66-162, for all the events of the files: the range of events and the copy of the simulation are left out (C73) *)
Definition diomira event (open_file : string -> mcrd_file) (paths : list string) : result dio_tables :=
  let (events, e) := wf_from_files open_file paths in
  rbind (diomira_all event events nothing_simulated) (fun o => match e with None => Ok o | Some e => Err e end).
(** the file, as wf_from_files sees it (components.py 447-473, 568-589): it has no group Trigger *)
Definition diomira_file (o : dio_tables) : rwf_file :=
  {| h_events := Some (dt_events o); h_run := Some (dt_runs o); h_pmt := Some (dt_rwf o); h_sipm := Some (dt_sipm o); h_trg := None; h_chn := None |}.

(** ---- irene ---- *)
(** what irene writes and counts: the rows of PMAPS, Filters/s12_indices, Filters/empty_pmap, Run/runInfo, Run/events and Trigger, the list of event numbers and
    the numbers of events in and out *)
Record irene_tables := { it_pmaps : pm_tables; it_indices : list (Z * bool); it_peaks : list (Z * bool); it_runs : list Z; it_events : list (Z * Q); it_trigger : trigger_tables;
                         it_numbers : list Z; it_in : nat; it_out : nat }.
(** for irene.py 148-165 *)
Definition nothing_found : irene_tables :=
  {| it_pmaps := empty_tables; it_indices := []; it_peaks := []; it_runs := []; it_events := []; it_trigger := {| trg_types := []; trg_channels := [] |}; it_numbers := []; it_in := 0; it_out := 0 |}.
(** irene.py 148-165, hypathia.py 149-169 and components.py 1333-1341: the events, one after the other; [step i] gives the PMap of the event number i of
    the run, if it has samples over both thresholds *)
Fixpoint pmaps_all {W L} (f32 : Q -> Q) (step : nat -> W -> L -> result (option (list peak * list peak))) (n_sensors : nat) (events : list (waveforms (Z * Q) W L Z (list Z))) (o : irene_tables) : result irene_tables :=
  match events with
  | [] => Ok o
  | w :: events =>
    rbind (step (it_in o) (w_pmt w) (w_sipm w)) (fun r =>
    match r with
    | None => pmaps_all f32 step n_sensors events
        {| it_pmaps := it_pmaps o; it_indices := it_indices o ++ [(fst (w_event w), false)]; it_peaks := it_peaks o; it_runs := it_runs o; it_events := it_events o; it_trigger := it_trigger o;
           it_numbers := it_numbers o; it_in := S (it_in o); it_out := it_out o |}
    | Some pm =>
      if nonempty_pmap pm then
        rbind (store_pmap f32 (it_pmaps o) (fst (w_event w)) {| s1s := fst pm; s2s := snd pm |}) (fun t =>
        rbind (store_trigger n_sensors (it_trigger o) (w_trg w) (w_chn w)) (fun trg =>
        pmaps_all f32 step n_sensors events
          {| it_pmaps := t; it_indices := it_indices o ++ [(fst (w_event w), true)]; it_peaks := it_peaks o ++ [(fst (w_event w), true)]; it_runs := it_runs o ++ [w_run w];
             it_events := it_events o ++ [w_event w]; it_trigger := trg; it_numbers := it_numbers o ++ [fst (w_event w)]; it_in := S (it_in o); it_out := S (it_out o) |}))
      else pmaps_all f32 step n_sensors events
        {| it_pmaps := it_pmaps o; it_indices := it_indices o ++ [(fst (w_event w), true)]; it_peaks := it_peaks o ++ [(fst (w_event w), false)]; it_runs := it_runs o; it_events := it_events o;
           it_trigger := it_trigger o; it_numbers := it_numbers o; it_in := S (it_in o); it_out := it_out o |}
    end)
  end.
(** irene.py 148-165 and hypathia.py 149-169, over the events of the files *)
Definition pmaps_of_files {W L} f32 step (n_sensors : nat) (open_file : string -> h5file (Z * Q) W L Z (list Z)) (paths : list string) : result irene_tables :=
  let (events, e) := wf_from_files open_file paths in
  rbind (pmaps_all f32 step n_sensors events nothing_found) (fun o => match e with None => Ok o | Some e => Err e end).
(** irene.py 55-173, for all the events of the files: the range of events, the copy of the simulation (C73) and the constants of the database are left out *)
Definition irene f32 (step : list (list Z) -> list (list Z) -> result (option (list peak * list peak))) (n_sensors : nat) (open_file : string -> rwf_file) (paths : list string) : result irene_tables :=
  pmaps_of_files f32 (fun _ => step) n_sensors open_file paths.
(** the file, as pmap_from_files sees it *)
Definition irene_output (o : irene_tables) : pfile := {| pf_tables := Some (it_pmaps o); pf_runs := Some (it_runs o); pf_events := Some (it_events o) |}.
