(** Model of the readers of whole tables: io/pmaps_io.py (load_pmaps_as_df), io/dst_io.py (load_dst, load_dsts), reco/dst_functions.py, reco/pmaps_functions.py
    (pmap_event_id_selection), io/voxels_io.py and io/histogram_io.py *)
From Coq Require Import String.
From Verif Require Import Base PeaksModel BuffersModel PmapioModel.
Local Open Scope Z_scope.

(** for pmaps_io.py 122-148: load_pmaps_as_df_eager *)
Definition NoSuchNodeError : pyexc := Other 36.
(** for dst_io.py 23-51 *)
Definition HDF5ExtError : pyexc := Other 90.
(** for dst_io.py 23-51 *)
Definition IOError : pyexc := Other 91.

(** ---- pmaps_io.py: the tables of PMaps. None is a missing table; the column evt_number of Run/events ---- *)
Record pm_file := { pm_events : option (list Z); pm_s1 : option (list sum_row); pm_s2 : option (list sum_row);
                    pm_si : option (list sensor_row); pm_s1pmt : option (list sensor_row); pm_s2pmt : option (list sensor_row) }.
(** for pmaps_io.py 122-148: load_pmaps_as_df_eager *)
Definition node {A} (x : option A) : result A := match x with Some a => Ok a | None => Err NoSuchNodeError end.
(** 85-90: check_file_integrity, that reads Run.events, S1 and S2 *)
Definition check (f : pm_file) : result unit :=
  rbind (node (pm_events f)) (fun evs => rbind (node (pm_s1 f)) (fun s1 => rbind (node (pm_s2 f)) (fun s2 =>
  check_file_integrity evs {| t_s1 := s1; t_s2 := s2; t_si := []; t_s1pmt := []; t_s2pmt := [] |}))).
(** 122-148: load_pmaps_as_df_eager *)
Definition whole := (list sum_row * list sum_row * list sensor_row * option (list sensor_row) * option (list sensor_row))%type.
(** pmaps_io.py 122-148: load_pmaps_as_df_eager *)
Definition load_pmaps_as_df_eager (f : pm_file) : result whole :=
  rbind (check f) (fun _ => rbind (node (pm_s1 f)) (fun s1 => rbind (node (pm_s2 f)) (fun s2 => rbind (node (pm_si f)) (fun si =>
  Ok (s1, s2, si, pm_s1pmt f, pm_s2pmt f))))).
(** 151-190: load_pmaps_as_df_lazy, all its values: the five tables of each event of the window; skip and n are not negative. Every exception is raised before the first value *)
Definition one := (option (list sum_row) * option (list sum_row) * option (list sensor_row) * option (list sensor_row) * option (list sensor_row))%type.
(** pmaps_io.py 176-179: read_event *)
Definition read_event {R} (event_of : R -> Z) (table : option (list R)) (ev : Z) : option (list R) :=
  match table with None => None | Some rows => Some (filter (fun r => event_of r =? ev) rows) end.
(** pmaps_io.py 151-190: load_pmaps_as_df_lazy *)
Definition load_pmaps_as_df_lazy (f : pm_file) (skip : nat) (n : option nat) : result (list one) :=
  rbind (check f) (fun _ => rbind (node (pm_events f)) (fun evs =>
  let n := match n with None => List.length evs | Some n => n end in
  Ok (map (fun ev => (read_event s_event (pm_s1 f) ev, read_event s_event (pm_s2 f) ev, read_event r_event (pm_si f) ev, read_event r_event (pm_s1pmt f) ev, read_event r_event (pm_s2pmt f) ev))
          (slice skip (skip + n) evs)))).

(** ---- dst_io.py 23-51. A table has the names of its columns and its rows; [event_of] is the value in the column event, when there is one ---- *)
Section Dst.
Context {R : Type}.
Variable event_of : R -> Z.
(** for dst_io.py 49-51: load_dsts *)
Record dst := { columns : list string; content : list R }.
(** for dst_io.py 49-51: load_dsts *)
Inductive h5file := Missing | Corrupted | File (table : option dst).
(** for dst_functions.py 3-21 *)
Definition has_event (d : dst) : bool := existsb (String.eqb "event") (columns d).
(** np.isin *)
Definition isin (l : list Z) (z : Z) : bool := existsb (Z.eqb z) l.
(** 26-34. The field of a table without that column is a KeyError *)
Definition read_dst (f : h5file) (evt_list : option (list Z)) : result dst :=
  match f with
  | Missing => Err IOError
  | Corrupted => Err HDF5ExtError
  | File None => Err NoSuchNodeError
  | File (Some d) =>
    match evt_list with
    | None => Ok d
    | Some l => if has_event d then Ok {| columns := columns d; content := filter (fun r => isin l (event_of r)) (content d) |} else Err KeyError
    end
  end.
(** 36-46: with ignore_errors the three exceptions give a warning and None *)
Definition load_dst (f : h5file) (evt_list : option (list Z)) (ignore_errors : bool) : result (option dst) :=
  match read_dst f evt_list with
  | Ok d => Ok (Some d)
  | Err e => if ignore_errors then match e with Other 36 | Other 90 | Other 91 => Ok None | _ => Err e end else Err e
  end.
(** 49-51: load_dsts. pandas.concat drops the None and raises ValueError when nothing is left; tables with different columns are not modelled *)
Definition somes {A} (l : list (option A)) : list A := flat_map (fun x => match x with Some a => [a] | None => [] end) l.
(** for dst_io.py 49-51: load_dsts *)
Fixpoint same_columns (l m : list string) : bool :=
  match l, m with [], [] => true | a :: l, b :: m => String.eqb a b && same_columns l m | _, _ => false end.
(** for dst_io.py 49-51: load_dsts *)
Definition pd_concat (l : list (option dst)) : result dst :=
  match somes l with
  | [] => Err ValueError
  | d :: ds => if forallb (fun x => same_columns (columns d) (columns x)) ds then Ok {| columns := columns d; content := flat_map content (d :: ds) |} else Err NotModelled
  end.
(** dst_io.py 49-51: load_dsts *)
Definition load_dsts (dst_list : list h5file) (evt_list : option (list Z)) (ignore_errors : bool) : result dst :=
  rbind (rmap (fun f => load_dst f evt_list ignore_errors) dst_list) pd_concat.
(** dst_functions.py 3-21 *)
Definition dst_event_id_selection (d : dst) (event_ids : list Z) : dst :=
  if has_event d then {| columns := columns d; content := filter (fun r => isin event_ids (event_of r)) (content d) |} else d.
End Dst.
Arguments dst : clear implicits. Arguments h5file : clear implicits.

(** pmaps_functions.py 96-109 with core_functions.py dict_filter_by_key; a dictionary is the list of its items *)
Definition pmap_event_id_selection {A} (data : list (Z * A)) (event_ids : list Z) : list (Z * A) := filter (fun x => isin event_ids (fst x)) data.

(** ---- voxels_io.py. A voxel is its position, energy and size ---- *)
Definition voxel := (Q * Q * Q * Q * (Q * Q * Q))%type.
(** 20-29: write_voxels *)
Definition write_voxels (table : list (Z * voxel)) (evt_number : Z) (voxels : list voxel) : list (Z * voxel) := (table ++ map (fun v => (evt_number, v)) voxels)%list.
(** with pmaps_functions.py 96-109 *)
Definition write_all (table : list (Z * voxel)) (l : list (Z * list voxel)) : list (Z * voxel) := fold_left (fun t e => write_voxels t (fst e) (snd e)) l table.
(** 47-51: all_events.setdefault(event, []).append(voxel) *)
Fixpoint append_to (d : list (Z * list voxel)) (ev : Z) (v : voxel) : list (Z * list voxel) :=
  match d with [] => [(ev, [v])] | (e, l) :: d => if e =? ev then (e, (l ++ [v])%list) :: d else (e, l) :: append_to d ev v end.
(** voxels_io.py 33-52: load_voxels *)
Definition load_voxels (table : list (Z * voxel)) : list (Z * list voxel) := fold_left (fun d r => append_to d (fst r) (snd r)) table [].

(** ---- histogram_io.py 33-34: write_hist. A histogram is any array, that is its values in order; the entries of the node are arrays of n_sensors lists of n_bins values ---- *)
Fixpoint cut_in {A} (k n : nat) (l : list A) : list (list A) := match k with O => [] | S k => firstn n l :: cut_in k n (skipn n l) end.
(** histogram_io.py 33-34: write_hist *)
Definition write_hist (n_sensors n_bins : nat) (stored : list (list (list Z))) (histo : list Z) : result (list (list (list Z))) :=
  if (List.length histo =? n_sensors * n_bins)%nat then Ok (stored ++ [cut_in n_sensors n_bins histo])%list else Err ValueError.
(** with histogram_io.py 33-34: write_hist *)
Fixpoint write_hists (n_sensors n_bins : nat) (stored : list (list (list Z))) (l : list (list Z)) : list (list (list Z)) * option pyexc :=
  match l with
  | [] => (stored, None)
  | h :: l => match write_hist n_sensors n_bins stored h with Ok s => write_hists n_sensors n_bins s l | Err e => (stored, Some e) end
  end.
