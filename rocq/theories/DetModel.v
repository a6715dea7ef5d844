(** Model of a run of detsim over simulation files: cities/detsim.py 153-292, with the reader of the hits (ReadModel.v), the simulation of an event
    (DsimModel.v) and the writer of the buffers (BfyModel.v) *)
From Coq Require Import String Qround.
From Verif Require ReadModel.
From Verif Require Import Base Arrays PeaksModel BuffersModel DetsimModel S1Model DsimModel FrunModel BfyModel.
Local Open Scope nat_scope.

(** a simulation file: the rows of MC/hits (None when it is not there), each with the number of its event, and the pairs of string and number of MC/string_map *)
Record hfile := { hf_hits : option (list (Z * mchit)); hf_names : list (nat * nat) }.
(** components.py 695-704: an event as it enters the pipe *)
Record ditem := { di_event : Z; di_time : Q; di_hits : list mchit; di_names : list (nat * nat) }.
(** the numbers drawn for an event (DsimModel.v) *)
Record det_draws := { dd_poisson : nat -> nat; dd_gauss : nat -> Q; dd_decay : nat -> nat -> Q; dd_x : nat -> Q; dd_y : nat -> Q; dd_z : nat -> Q; dd_ph : nat -> Q;
                      dd_scint : nat -> Q -> nat; dd_s1 : nat -> nat -> Q -> nat; dd_s2 : nat -> nat -> Q -> nat; dd_si : nat -> nat -> Q -> nat }.

(** components.py 683-704: MC_hits_from_files with the labels as numbers; [draw n] is the number drawn for the time of the n-th event *)
Definition det_items (rate : Q) (draw : nat -> Q) (files : list hfile) : list ditem :=
  mapi (fun n '(names, (ev, hits)) => {| di_event := ev; di_time := ReadModel.create_timestamp rate ev (draw n); di_hits := map snd hits; di_names := names |})
       (flat_map (fun f => match hf_hits f with None => [] | Some hits => map (pair (hf_names f)) (ReadModel.mc_groups fst hits) end) files).

(** what detsim writes and counts: the rows of Filters/active_hits, Filters/dark_events, Filters/signal and those of the triggers, the list of event numbers for
    the copy of the simulation, and the number of events in *)
Record det_tables := { dt_active : list (Z * bool); dt_dark : list (Z * bool); dt_signal : list (Z * bool); dt_rows : list brow; dt_numbers : list Z; dt_in : nat }.
(** for detsim.py 153-292 *)
Definition nothing_simulated : det_tables := {| dt_active := []; dt_dark := []; dt_signal := []; dt_rows := []; dt_numbers := []; dt_in := 0 |}.

Section Detsim.
  Variable sqrtQ : Q -> Q.
  Variable emitted : Q -> Q.
  Variable s1_lt : list Q -> list Q -> list Q -> result (list (list Q)).
  Variable s1_sensors : nat.
  Variables (p : physics) (lt_pmt lt_sipm : light_table) (ACTIVE BUFFER : nat).
  (** the PMTs and the SiPMs of the database *)
  Variables pmt_db sipm_db : list nat.
  Variable rn : nat -> det_draws.

  (** detsim.py 268-281: the simulation of an event, with the numbers drawn [d] *)
  Definition simulate_event (d : det_draws) (c : bcfg) (e : ditem) : result outcome :=
    detsim_event (dd_poisson d) (dd_gauss d) sqrtQ (dd_decay d) (dd_x d) (dd_y d) (dd_z d) (dd_ph d) (dd_scint d) (dd_s1 d) (dd_s2 d) (dd_si d) emitted s1_lt s1_sensors
      c p lt_pmt lt_sipm ACTIVE BUFFER (di_names e) (di_event e) (di_time e) (di_hits e).

  (** detsim.py 264-284 and components.py 1388-1433: the events, one after the other. An event with a trigger has rows, so that the filter of the signal is
      whether there are rows. detsim does not reorder the sensors (260) *)
  Fixpoint detsim_all (c : bcfg) (items : list ditem) (o : det_tables) : result det_tables :=
    match items with
    | [] => Ok o
    | e :: items =>
      rbind (simulate_event (rn (dt_in o)) c e) (fun out =>
      match out with
      | NoActive => detsim_all c items
          {| dt_active := dt_active o ++ [(di_event e, false)]; dt_dark := dt_dark o; dt_signal := dt_signal o; dt_rows := dt_rows o; dt_numbers := dt_numbers o; dt_in := S (dt_in o) |}
      | DarkEvent => detsim_all c items
          {| dt_active := dt_active o ++ [(di_event e, true)]; dt_dark := dt_dark o ++ [(di_event e, false)]; dt_signal := dt_signal o; dt_rows := dt_rows o; dt_numbers := dt_numbers o; dt_in := S (dt_in o) |}
      | Written rows =>
        rbind (rmap (store_row pmt_db sipm_db c) rows) (fun stored =>
        let passed := match rows with [] => false | _ => true end in
        detsim_all c items
          {| dt_active := dt_active o ++ [(di_event e, true)]; dt_dark := dt_dark o ++ [(di_event e, true)]; dt_signal := dt_signal o ++ [(di_event e, passed)];
             dt_rows := dt_rows o ++ stored; dt_numbers := dt_numbers o ++ (if passed then [di_event e] else []); dt_in := S (dt_in o) |})
      end)
    end.

  (** detsim.py 153-292, for all the events of the files: the range of events and the copy of the simulation are left out (C73) *)
  Definition detsim_run (mus : Q) (b : bconf) (pw sw : Q) (rate : Q) (draw : nat -> Q) (files : list hfile) : result det_tables :=
    rbind (check_max_time mus (cf_max b) (cf_buffer b)) (fun mt => detsim_all (readout b mt pw sw) (det_items rate draw files) nothing_simulated).
End Detsim.

(** the file, as wf_from_files sees it: the buffers have the format of those of buffy *)
Definition detsim_file (run : Z) (o : det_tables) : mcrd_file :=
  buffy_file run {| bt_detected := dt_active o; bt_signal := dt_signal o; bt_rows := dt_rows o; bt_numbers := dt_numbers o; bt_in := dt_in o; bt_resp := 0 |}.
