(** Model of a run of isaura: cities/isaura.py 35-127, with the reader of deconvolved hits (cities/components.py 708-751; the rows are those of ReadModel.v) and
    the tracks (TopoModel.v); and the file that beersheba writes, as this reader sees it *)
From Coq Require Import String.
From Verif Require Import Base ReadModel PsfModel DeconvModel PaolinaModel TopoModel BrunModel.
Local Open Scope nat_scope.
Notation drow := ReadModel.dhit.

(** a file: the names of the columns of DECO/Events, with the tables of ReadModel.v *)
Record dfile {K : Type} := { df_columns : list string; df_file : hfile drow K }.
Arguments dfile K : clear implicits.
(** for components.py 742-746 *)
Definition has (names : list string) (n : string) : bool := existsb (String.eqb n) names.
(** components.py 744 and 746 *)
Definition wide_columns : list string := ["event"; "time"; "npeak"; "Xpeak"; "Ypeak"; "X"; "Y"; "Z"; "Q"; "E"; "Ec"; "track_id"; "Ep"]%string.
(** for components.py 742-746 *)
Definition narrow_columns : list string := ["event"; "npeak"; "X"; "Y"; "Z"; "Q"; "E"]%string.
(** components.py 742-746: dhits.E, and the selection of columns with .loc, that fails if one is missing; the column Q has just been made *)
Definition select_columns (names : list string) : option pyexc :=
  if negb (has names "E") then Some AttributeError
  else if forallb (fun n => has names n || String.eqb n "Q") (if has names "Xpeak" then wide_columns else narrow_columns) then None else Some KeyError.

Section Reader.
  Context {K : Type}.
  Variable k_event : K -> Z.
  (** components.py 734-751 *)
  Fixpoint deco_items (names : list string) (hits : list drow) (kdst : option (list K)) (run : Z) (table : list (Z * Q)) (events : list Z) : generated (ditem (K := K)) :=
    match events with
    | [] => ([], None)
    | ev :: events =>
      match filter (fun '(e, _) => Z.eqb e ev) table with
      | [] => ([], Some IndexError)
      | (_, t) :: _ =>
        match select_columns names with
        | Some e => ([], Some e)
        | None =>
          let item := {| x_hits := map patch (filter (fun h => Z.eqb (ReadModel.d_event h) ev) hits);
                         x_kdst := option_map (filter (fun k => Z.eqb (k_event k) ev)) kdst; x_run := run; x_event := ev; x_time := t |} in
          let (l, e) := deco_items names hits kdst run table events in (item :: l, e)
        end
      end
    end.
  (** components.py 719-734; dhits_df.event fails if there is no such column *)
  Definition deco_from_file (f : dfile K) : generated (ditem (K := K)) :=
    match f_hits (df_file f) with
    | None => ([], None)
    | Some hits =>
      match run_of (f_runs (df_file f)) with
      | None => ([], None)
      | Some run =>
        match f_events (df_file f) with
        | None => ([], Some NoSuchNodeError)
        | Some table =>
          if negb (has (df_columns f) "event") then ([], Some AttributeError)
          else deco_items (df_columns f) hits (f_kdst (df_file f)) run table (unique_events (map ReadModel.d_event hits))
        end
      end
    end.
  (** for isaura.py 35-127 *)
  Definition deco_from_files (files : list (dfile K)) : generated (ditem (K := K)) := over_files deco_from_file files.
End Reader.

(** a row of the table DECO/Events of isaura: the event number, the row of the input it comes from, and the columns that the tracks change *)
Record irow := { ir_number : Z; ir_hit : drow; ir_out : ohit }.
(** what a run writes and counts: the rows of Filters/hits_select and Filters/topology_select, of Summary/Events, DECO/Events, Tracking/Tracks, DST/Events and
    Run, the list of event numbers and the numbers of events in and out *)
Record isaout {K : Type} := { is_select : list (Z * bool); is_topology : list (Z * bool); is_summary : list summary; is_hits : list irow; is_tracks : list track_row;
                 is_kdst : list K; is_info : list (Z * Z * Q); is_numbers : list Z; is_in : nat; is_out : nat }.
Arguments isaout K : clear implicits.
(** for isaura.py 35-127 *)
Definition no_event_read {K} : isaout K := {| is_select := []; is_topology := []; is_summary := []; is_hits := []; is_tracks := []; is_kdst := []; is_info := []; is_numbers := []; is_in := 0; is_out := 0 |}.
(** for isaura.py 106-116 *)
Definition no_row : drow := {| ReadModel.d_event := 0; d_npeak := 0; d_pos := (0, 0, 0)%Q; d_Q := 0; d_E := 0; d_more := None |}.

Section Isaura.
  Context {K : Type}.
  Variable k_event : K -> Z.
  (** the contents of the columns of a hit other than the position and the energies, which are only compared with each other *)
  Variable others : drow -> nat.
  Variables (round5 : Q -> Q) (paths : list voxel -> list voxel * (voxel -> voxel -> Q)) (norm : pos3 -> Q).
  (** paolina_params *)
  Variables (vox_size : Q * Q * Q) (strict : bool) (energy_threshold : Q) (min_voxels : nat) (blob_radius : Q) (scan_radius : option Q) (max_num_hits : Z).

  (** the columns of a hit that the tracks use; Ec and Ep are made from E (Efield_copier with HitEnergy.E) *)
  Definition to_track (h : drow) : thit :=
    let '(x, y, z) := d_pos h in {| tX := x; tY := y; tZ := z; tE := d_E h; tEc := None; tEp := None; tother := others h |}.

  (** isaura.py 106-116: the events, one after the other; in each, the branch that looks for tracks goes first *)
  Fixpoint isaura_run (items : list (ditem (K := K))) (o : isaout K) : result (isaout K) :=
    match items with
    | [] => Ok o
    | it :: items =>
      rbind (write_tracks_info round5 paths norm vox_size strict energy_threshold min_voxels blob_radius scan_radius max_num_hits HE (x_event it) (map to_track (x_hits it))) (fun w =>
      isaura_run items
        {| is_select := is_select o ++ [(x_event it, w_hits_passed w)]; is_topology := is_topology o ++ map (pair (x_event it)) (w_topology w);
           is_summary := is_summary o ++ w_summary w;
           is_hits := is_hits o ++ map (fun h => {| ir_number := x_event it; ir_hit := nth (o_row h) (x_hits it) no_row; ir_out := h |}) (w_hits w);
           is_tracks := is_tracks o ++ w_tracks w; is_kdst := is_kdst o ++ match x_kdst it with Some l => l | None => [] end;
           is_info := is_info o ++ [(x_run it, x_event it, x_time it)]; is_numbers := is_numbers o ++ [x_event it];
           is_in := S (is_in o); is_out := S (is_out o) |})
    end.
  (** isaura.py 35-127, for all the events of the files: the range of events and the copy of the simulation (C73) are left out, and the rounding of the columns
      by the types of the tables *)
  Definition isaura (files : list (dfile K)) : result (isaout K) :=
    let (items, e) := deco_from_files k_event files in
    rbind (isaura_run items no_event_read) (fun o => match e with None => Ok o | Some e => Err e end).
End Isaura.

(** beersheba.py 228, 261-275, 96-97 and dst_io.py 102-125: the columns of the table DECO/Events of beersheba, and its file. Of the columns Xpeak, Ypeak and time only the
    names are modelled. *)
Definition beersheba_columns : list string := ["event"; "npeak"; "X"; "Y"; "Z"; "E"; "Xpeak"; "Ypeak"; "time"]%string.
(** for beersheba.py 228, 261-275, 96-97 *)
Definition as_row (r : Z * (list Q * deco * Q)) : drow :=
  let '(ev, (peak, d, _)) := r in
  {| ReadModel.d_event := ev; d_npeak := Z.to_nat (Qfloor (hd 0%Q peak)); d_pos := (oX d, oY d, oZ d); d_Q := 0; d_E := oE d; d_more := None |}.
(** with beersheba.py 228, 261-275, 96-97 *)
Definition beersheba_file {K} (o : bout K) : dfile K :=
  {| df_columns := beersheba_columns;
     df_file := {| f_hits := Some (map as_row (br_deco o)); f_kdst := Some (br_kdst o); f_runs := Some (map (fun i => fst (fst i)) (br_info o));
                   f_events := Some (map (fun i => (snd (fst i), snd i)) (br_info o)) |} |}.
