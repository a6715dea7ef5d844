(** The tables that buffy and detsim leave when they fail or are stopped: each city, writer by writer, in the order of its pipe *)
From Coq Require Import String Qround.
From Verif Require ReadModel.
From Verif Require Import Base Arrays PeaksModel BuffersModel DetsimModel S1Model DsimModel FrunModel BfyModel DetModel.
From Verif Require Import HaltBase.
Local Open Scope nat_scope.

(** The tables of the two cities: the filters (detected_events of buffy, active_hits and dark_events of detsim, and signal), Run/events (the row of Run/runInfo is
    written with it), Run/eventMap, RD/pmtrd and RD/sipmrd; the list of event numbers and what is counted are not in the file *)
Record sim_tables := { st_first : list (Z * bool); st_dark : list (Z * bool); st_signal : list (Z * bool); st_events : list (Z * Z); st_map : list (Z * Z);
                       st_pmt : list (list (list Z)); st_sipm : list (list (list Z)); st_numbers : list Z; st_in : nat; st_resp : nat }.
(** for rwf_io.py 156-167 *)
Definition sim_add (first dark signal : list (Z * bool)) (events map : list (Z * Z)) (pmt sipm : list (list (list Z))) (numbers : list Z) (i r : nat) (t : sim_tables) : sim_tables :=
  {| st_first := st_first t ++ first; st_dark := st_dark t ++ dark; st_signal := st_signal t ++ signal; st_events := st_events t ++ events; st_map := st_map t ++ map;
     st_pmt := st_pmt t ++ pmt; st_sipm := st_sipm t ++ sipm; st_numbers := st_numbers t ++ numbers; st_in := i + st_in t; st_resp := r + st_resp t |}.
(** those of the models of the runs *)
Definition buffy_view (o : bfy_tables) : sim_tables :=
  {| st_first := bt_detected o; st_dark := []; st_signal := bt_signal o; st_events := map (fun r => (br_event r, br_time r)) (bt_rows o); st_map := map (fun r => (br_event r, br_nexus r)) (bt_rows o);
     st_pmt := map br_pmt (bt_rows o); st_sipm := map br_sipm (bt_rows o); st_numbers := bt_numbers o; st_in := bt_in o; st_resp := bt_resp o |}.
(** for rwf_io.py 156-167 *)
Definition detsim_view (o : det_tables) : sim_tables :=
  {| st_first := dt_active o; st_dark := dt_dark o; st_signal := dt_signal o; st_events := map (fun r => (br_event r, br_time r)) (dt_rows o); st_map := map (fun r => (br_event r, br_nexus r)) (dt_rows o);
     st_pmt := map br_pmt (dt_rows o); st_sipm := map br_sipm (dt_rows o); st_numbers := dt_numbers o; st_in := dt_in o; st_resp := 0 |}.

Section Saving.
  Variables pmt_db sipm_db : list nat.
  (** rwf_io.py 156-167: the rows of a trigger *)
  Definition write_row (c : bcfg) (r : out_row) : prog sim_tables unit :=
    t <- call (store_time (time_stamp r)) ;;
    put (sim_add [] [] [] [(evt_number r, t)] [] [] [] [] 0 0) ;;;
    put (sim_add [] [] [] [] [(evt_number r, nexus_evt r)] [] [] [] 0 0) ;;;
    p <- call (store_array (List.length pmt_db) (Z.to_nat (Qtrunc (buffer_len c / pmt_wid c))) (eng r)) ;;
    put (sim_add [] [] [] [] [] [p] [] [] 0 0) ;;;
    s <- call (store_array (List.length sipm_db) (Z.to_nat (Qtrunc (buffer_len c / sipm_wid c))) (trk r)) ;;
    put (sim_add [] [] [] [] [] [] [s] [] 0 0).
  (** components.py 1388-1434, buffy.py 136-138 and detsim.py 281-284 *)
  Definition save_step (c : bcfg) (order : mat * mat -> result (mat * mat)) (nexus : Z) (timestamp : Q) (pmt_bins : list Q) (pmts : mat) (sipm_bins : list Q) (sipms : mat) : prog sim_tables unit :=
    pulses <- call (find_signal_start pmts (trigger_threshold c) (stand_off c)) ;;
    put (sim_add [] [] [(nexus, match pulses with [] => false | _ => true end)] [] [] [] [] [] 0 0) ;;;
    match pulses with
    | [] => ret tt
    | _ =>
      times <- call (trigger_times pulses timestamp pmt_bins) ;;
      buffers <- call (position_signal c pulses pmt_bins pmts sipm_bins sipms) ;;
      ordered <- call (rmap order buffers) ;;
      each (write_buffers (max_subevt c) nexus times ordered) (write_row c) ;;;
      put (sim_add [] [] [] [] [] [] [] [nexus] 0 0)
    end.

  (** buffy.py 123-141 *)
  Definition buffy_step (c : bcfg) (rate : Q) (draw : nat -> Q) (it : Z * (list ReadModel.stime * list ReadModel.stime)) : prog sim_tables unit :=
    let '(ev, (p, s)) := it in
    i <- look st_in ;;
    put (sim_add [] [] [] [] [] [] [] [] 1 0) ;;;
    if (match p with [] => true | _ => false end) || (match s with [] => true | _ => false end) then put (sim_add [(ev, false)] [] [] [] [] [] [] [] 0 0)
    else
      put (sim_add [(ev, true)] [] [] [] [] [] [] [] 0 1) ;;;
      p <- call (rmap to_simrow p) ;;
      s <- call (rmap to_simrow s) ;;
      ends <- call (first_and_last_times p s (pmt_wid c) (sipm_wid c)) ;;
      let '(pmt_bins, pmts) := bin_sensors p (pmt_wid c) (fst ends) (snd ends) (max_time c) in
      let '(sipm_bins, sipms) := bin_sensors s (sipm_wid c) (fst ends) (snd ends) (max_time c) in
      save_step c (order_and_pad pmt_db sipm_db (b_ids pmts) (b_ids sipms) (Z.to_nat (Qtrunc (buffer_len c / pmt_wid c))) (Z.to_nat (Qtrunc (buffer_len c / sipm_wid c))))
        ev (ReadModel.create_timestamp rate ev (draw i)) pmt_bins (b_wfs pmts) sipm_bins (b_wfs sipms).

  Section Detsim.
    Variable sqrtQ : Q -> Q.
    Variable emitted : Q -> Q.
    Variable s1_lt : list Q -> list Q -> list Q -> result (list (list Q)).
    Variable s1_sensors : nat.
    Variables (p : physics) (lt_pmt lt_sipm : light_table) (ACTIVE BUFFER : nat).
    Variable rn : nat -> det_draws.
    (** detsim.py 264-284 *)
    Definition detsim_step (c : bcfg) (e : ditem) : prog sim_tables unit :=
      i <- look st_in ;;
      let d := rn i in
      put (sim_add [] [] [] [] [] [] [] [] 1 0) ;;;
      intime <- call (filter_hits_after_max_time (max_time c) (di_hits e)) ;;
      s1_hits <- call (hits_selector ACTIVE BUFFER false (di_names e) intime) ;;
      active <- call (hits_selector ACTIVE BUFFER true (di_names e) s1_hits) ;;
      if negb (existsb (fun h => negb (Qeqb (he h) 0)) active) then put (sim_add [(di_event e, false)] [] [] [] [] [] [] [] 0 0)
      else
        put (sim_add [(di_event e, true)] [] [] [] [] [] [] [] 0 0) ;;;
        simulated <- call (simulate_ielectrons (dd_poisson d) (dd_gauss d) sqrtQ (dd_decay d) (dd_x d) (dd_y d) (dd_z d) (dd_ph d) (wi p) (fano p) (drift_v p) (trans p) (longi p) (gain p) (conde p) active) ;;
        let els := fst simulated in
        if (fold_left Z.add (map eph els) 0 <=? 0)%Z then put (sim_add [] [(di_event e, false)] [] [] [] [] [] [] 0 0)
        else
          put (sim_add [] [(di_event e, true)] [] [] [] [] [] [] 0 0) ;;;
          tl <- call (get_buffer_times_and_length (pmt_wid c) (sipm_wid c) (el_gap_width lt_sipm) (el_dv p) (max_time c) (map htime s1_hits) (map et els)) ;;
          s1_pmt <- call (create_s1_waveforms (dd_scint d) (dd_s1 d) emitted s1_lt s1_sensors (ws p) (pmt_wid c) s1_hits (fst tl) (snd tl)) ;;
          s2_pmt <- call (create_s2_waveform (dd_s2 d) (pmt_wid c) lt_pmt (el_dv p) els (fst tl) (snd tl)) ;;
          pmt_wfs <- call (add_arrays s1_pmt s2_pmt) ;;
          sipm_wfs <- call (create_s2_waveform (dd_si d) (sipm_wid c) lt_sipm (el_dv p) els (fst tl) (snd tl)) ;;
          save_step c (@Ok (mat * mat)) (di_event e) (di_time e) (bin_edges (pmt_wid c) (to_mat pmt_wfs)) (to_mat pmt_wfs) (bin_edges (sipm_wid c) (to_mat sipm_wfs)) (to_mat sipm_wfs).
  End Detsim.
End Saving.
