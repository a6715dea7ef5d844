(** Model of a run of esmeralda: cities/esmeralda.py 60-196, with the reader of hits (ReadModel.v), the corrections and the threshold of the hits
    (EsmModel.v) and the tracks (TopoModel.v) *)
From Verif Require Import Base ReadModel CorrModel HitsModel EsmModel PaolinaModel TopoModel.
Local Open Scope nat_scope.

(** a row of CHITS/highTh: the event number, the row of the hits after the threshold it comes from, and the columns the tracks change *)
Record crow := { c_number : Z; c_hit : hit; c_out : ohit }.
(** what a run writes and counts: the rows of Filters/high_th_select and Filters/topology_select, of Summary/Events, CHITS/highTh, Tracking/Tracks,
    DST/Events and Run, the list of event numbers and the numbers of events in and out *)
Record eout {K : Type} := { eo_select : list (Z * bool); eo_topology : list (Z * bool); eo_summary : list summary; eo_hits : list crow; eo_tracks : list track_row;
                 eo_kdst : list K; eo_info : list (Z * Z * Q); eo_numbers : list Z; eo_in : nat; eo_out : nat }.
Arguments eout K : clear implicits.
(** for esmeralda.py 69-196 *)
Definition no_event_done {K} : eout K := {| eo_select := []; eo_topology := []; eo_summary := []; eo_hits := []; eo_tracks := []; eo_kdst := []; eo_info := []; eo_numbers := []; eo_in := 0; eo_out := 0 |}.

(** for esmeralda.py 175-186 *)
Definition no_hit : hit := {| hmeta := 0; npeak := 0; hX := 0; hY := 0; hZ := 0; hQ := 0; hE := None; hEc := None |}.

Section Esmeralda.
  Context {K : Type}.
  Variable kdst_event : K -> Z.
  Variable nearest : list (Q * Q * Q) -> Q * Q * Q -> nat.
  (** the contents of the columns of a hit other than the position and the energies, which are only compared with each other *)
  Variable others : hit -> nat.
  Variables (round5 : Q -> Q) (paths : list voxel -> list voxel * (voxel -> voxel -> Q)) (norm : pos3 -> Q).
  (** corrections: the map, the table of drift velocities, and the options of hits_corrector *)
  Variables (m : list kbin) (dvs : list (option Q)) (method : norm_method) (xy : option region) (apply_temp apply_z : bool).
  Variables (radius th : Q) (same_peak : bool).
  (** paolina_params *)
  Variables (vox_size : Q * Q * Q) (strict : bool) (energy_threshold : Q) (min_voxels : nat) (blob_radius : Q) (scan_radius : option Q) (max_num_hits : Z).

  (** the columns of a hit that the tracks use. The column E is a number after the threshold; without threshold (th <= 0) a NaN in it is not modelled. *)
  Definition for_tracks (h : hit) : thit :=
    {| tX := hX h; tY := hY h; tZ := hZ h; tE := match hE h with Some e => e | None => 0%Q end; tEc := hEc h; tEp := None; tother := others h |}.

  (** esmeralda.py 175-186: the events, one after the other. In each, the branch that looks for tracks goes first; it changes nothing for the others
      when an event has no hits left (components.py 1645-1648). *)
  Fixpoint esmeralda_run (items : list (hitem (Z * hit) K)) (o : eout K) : result (eout K) :=
    match items with
    | [] => Ok o
    | it :: items =>
      rbind (esmeralda_hits nearest m dvs method xy apply_temp apply_z radius th same_peak (map snd (i_hits it))) (fun hits =>
      rbind (write_tracks_info round5 paths norm vox_size strict energy_threshold min_voxels blob_radius scan_radius max_num_hits HEc (i_event it) (map for_tracks hits)) (fun w =>
      esmeralda_run items
        {| eo_select := eo_select o ++ [(i_event it, w_hits_passed w)]; eo_topology := eo_topology o ++ map (pair (i_event it)) (w_topology w);
           eo_summary := eo_summary o ++ w_summary w;
           eo_hits := eo_hits o ++ map (fun h => {| c_number := i_event it; c_hit := nth (o_row h) hits no_hit; c_out := h |}) (w_hits w);
           eo_tracks := eo_tracks o ++ w_tracks w; eo_kdst := eo_kdst o ++ i_kdst it;
           eo_info := eo_info o ++ [(i_run it, i_event it, i_time it)]; eo_numbers := eo_numbers o ++ [i_event it];
           eo_in := S (eo_in o); eo_out := S (eo_out o) |}))
    end.
  (** esmeralda.py 69-196, for all the events of the files. An exception of the reader reaches the caller. Not modelled: the copy of the simulation
      and the range of events (C73); the rounding of the columns by the types of the tables. *)
  Definition esmeralda (files : list (hfile (Z * hit) K)) : result (eout K) :=
    let (items, e) := hits_and_kdst_from_files fst kdst_event files in
    rbind (esmeralda_run items no_event_done) (fun o => match e with None => Ok o | Some e => Err e end).
End Esmeralda.
