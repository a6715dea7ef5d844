(** Model of the files of the two cities that describe the detector: cities/eutropia.py 58-136 and cities/zemrude.py 112-282 with icaros/krmap_functions.py 696-727, writer
    by writer, from the input to the tables that they leave, whether they end, fail or are stopped. The tables themselves are those of PsfModel.v and ZrunModel.v. *)
From Coq Require Import String.
From Verif Require Import Base PsfModel CorrModel KmapModel ZemModel TevModel ZrunModel HaltBase.
Local Open Scope nat_scope.

(** core/tbl_functions.py 18-48: filters, the level and the library of the compression. With level 0, its default, PyTables does not compress and has no library. *)
Definition no_filters : nat * string := (0, ""%string).
(** core/tbl_functions.py 18-48: filters; no name gives the filters of the place where the table is made *)
Definition filters (name : string) : result (nat * string) :=
  if (name =? "NOCOMPR")%string then Ok (0, ""%string) else
  if (name =? "ZLIB1")%string then Ok (1, "zlib"%string) else
  if (name =? "ZLIB4")%string then Ok (4, "zlib"%string) else
  if (name =? "ZLIB5")%string then Ok (5, "zlib"%string) else
  if (name =? "ZLIB9")%string then Ok (9, "zlib"%string) else
  if (name =? "BLOSC5")%string then Ok (5, "blosc"%string) else
  if (name =? "BLZ4HC5")%string then Ok (5, "blosc:lz4hc"%string) else Err ValueError.

(** ---- eutropia ---- *)
(** what components.py 665-678 finds in an input file: the table RECO/Events, the run number and the rows of Run/events; or something that is not there, NoSuchNodeError, or
    no row in Run/runInfo, IndexError, for which the file is left out; or another exception, as that of a file that does not exist *)
Record eitem := { ei_hits : list hit; ei_run : Z; ei_events : list (Z * Q) }.
(** for components.py 661-679: dst_from_files *)
Inductive efile := Opened (it : eitem) | Without | Broken (e : pyexc).
(** components.py 661-679: dst_from_files, the items up to the exception that ends the source, if any *)
Fixpoint dst_from_files (files : list efile) : list eitem * option pyexc :=
  match files with
  | [] => ([], None)
  | Opened it :: files => let '(l, e) := dst_from_files files in (it :: l, e)
  | Without :: files => dst_from_files files
  | Broken e :: _ => ([], Some e)
  end.
(** Run/runInfo, Run/events, and the table PSF/PSFs: no group PSF, the group without the table, or the table *)
Inductive psf_node := NoGroup | NoTable | Table (rows : list prow).
(** for eutropia.py 111-134 *)
Record euf := { eu_filters : nat * string; eu_runs : list Z; eu_events : list (Z * Q); eu_psf : psf_node }.
(** run_and_event_io.py 31-34: run_table_dumper *)
Definition put_run (r : Z) : prog euf unit := put (fun t => {| eu_filters := eu_filters t; eu_runs := eu_runs t ++ [r]; eu_events := eu_events t; eu_psf := eu_psf t |}).
(** run_and_event_io.py 37-41: event_table_dumper *)
Definition put_event (e : Z * Q) : prog euf unit := put (fun t => {| eu_filters := eu_filters t; eu_runs := eu_runs t; eu_events := eu_events t ++ [e]; eu_psf := eu_psf t |}).
(** for dst_io.py 79-124: df_writer *)
Definition put_psf (n : psf_node) : prog euf unit := put (fun t => {| eu_filters := eu_filters t; eu_runs := eu_runs t; eu_events := eu_events t; eu_psf := n |}).
(** eutropia.py 104-107 and 112-114: the branch with the events of one input file; run_and_event_io.py 25-27 *)
Definition write_events (it : eitem) : prog euf unit := each (ei_events it) (fun e => put_run (ei_run it) ;;; put_event e).
(** dst_io.py 79-124: df_writer into an open file without the group PSF; [None] has no attribute to_records *)
Definition write_psf (result : option (list prow)) : prog euf unit :=
  put_psf NoTable ;;;
  match result with
  | None => raise AttributeError
  | Some rows => put_psf (Table []) ;;; match rows with [] => ret tt | _ => put_psf (Table rows) end
  end.
Section Eutropia.
  (** the PSFs of the slices and sectors of one input file: eutropia.py 80-102, [psfs_of_file] of PsfModel.v *)
  Variable psfs : list hit -> result (list (list prow)).
  (** eutropia.py 116-129 and dataflow.py 200-209: for each input file, first the branch with the events and then the rest of the pipe; dataflow.py: reduce *)
  Fixpoint feed (items : list eitem) (acc : option (list prow)) : prog euf (option (list prow)) :=
    match items with
    | [] => ret acc
    | it :: items => write_events it ;;; frames <- call (psfs (ei_hits it)) ;; feed items (fold_left combine_psfs frames acc)
    end.
  (** eutropia.py 116-136: what is done with the output file open *)
  Definition eutropia_body (files : list efile) : prog euf unit :=
    let '(items, stop) := dst_from_files files in
    acc <- feed items None ;;
    match stop with Some e => raise e | None => write_psf acc end.
End Eutropia.
(** eutropia.py 58-136: the city on a disk that has at the place of its output file an old file or none; a name of compression that does not exist is found before the file
    is created *)
Definition eutropia_city round2 x0 x1 y0 y1 sensors zbins xsectors ysectors xe ye (compression : string) (files : list efile) : prog (option euf) unit :=
  f <- call (filters compression) ;;
  put (fun _ => Some {| eu_filters := f; eu_runs := []; eu_events := []; eu_psf := NoGroup |}) ;;;
  within (fun d => match d with Some t => t | None => {| eu_filters := f; eu_runs := []; eu_events := []; eu_psf := NoGroup |} end) (fun t _ => Some t)
    (eutropia_body (psfs_of_file round2 x0 x1 y0 y1 sensors zbins xsectors ysectors xe ye) files).

(** ---- zemrude ---- *)
(** the output file: its filters, metadata, data/selection_efficiencies, krmap/krmap and t_evol/t_evol, each if it is there, and the names of any other nodes *)
Record zemf := { zt_filters : nat * string; zt_meta : option meta; zt_eff : option (list efficiencies); zt_map : option (list map_row); zt_evol : option (list tevol); zt_other : list string }.
(** a file that has just been created *)
Definition new_file (f : nat * string) : zemf := {| zt_filters := f; zt_meta := None; zt_eff := None; zt_map := None; zt_evol := None; zt_other := [] |}.
(** dst_io.py 79-124: df_writer of the efficiencies, a table of one row (selection_functions.py 154-170) *)
Definition write_eff (e : efficiencies) : prog zemf unit :=
  let set l := put (fun t => {| zt_filters := zt_filters t; zt_meta := zt_meta t; zt_eff := Some l; zt_map := zt_map t; zt_evol := zt_evol t; zt_other := zt_other t |}) in
  set [] ;;; set [e].
(** dst_io.py 79-124: df_writer of the map *)
Definition write_map (m : list map_row) : prog zemf unit :=
  let set l := put (fun t => {| zt_filters := zt_filters t; zt_meta := zt_meta t; zt_eff := zt_eff t; zt_map := Some l; zt_evol := zt_evol t; zt_other := zt_other t |}) in
  set [] ;;; match m with [] => ret tt | _ => set m end.
(** dst_io.py 79-124: df_writer of the evolution *)
Definition write_evol (m : list tevol) : prog zemf unit :=
  let set l := put (fun t => {| zt_filters := zt_filters t; zt_meta := zt_meta t; zt_eff := zt_eff t; zt_map := zt_map t; zt_evol := Some l; zt_other := zt_other t |}) in
  set [] ;;; match m with [] => ret tt | _ => set m end.
(** krmap_functions.py 722: DataFrame.to_hdf with mode 'w' and no compression: pandas creates the file anew *)
Definition write_meta (m : meta) : prog zemf unit :=
  put (fun _ => new_file no_filters) ;;;
  put (fun t => {| zt_filters := zt_filters t; zt_meta := Some m; zt_eff := zt_eff t; zt_map := zt_map t; zt_evol := zt_evol t; zt_other := zt_other t |}).
(** krmap_functions.py 696-727: save_map. The groups that df_writer creates are left out. *)
Definition save_map (o : zout) : prog zemf unit := write_meta (zo_meta o) ;;; write_eff (zo_eff o) ;;; write_map (zo_map o) ;;; write_evol (zo_evol o).
(** zemrude.py 169-282: the city on a disk that has an old file or none; [pre]: what pandas reads from the file pre_map; [run]: ZrunModel.v; [control] and [evolution]: the
    two sets of plots, that go to other files. The plots come after the save in the fork of lines 279-281. *)
Definition zemrude_city (fit : fit_name) (run : list kbin -> result zout) (control evolution : zout -> result unit) (pre : result (list kbin)) (compression : string) : prog (option zemf) unit :=
  m <- call pre ;;
  match fit with
  | OtherFit => raise ValueError
  | _ =>
    f <- call (filters compression) ;;
    put (fun _ => Some (new_file f)) ;;;
    out <- call (run m) ;;
    within (fun d => match d with Some t => t | None => new_file f end) (fun t _ => Some t) (save_map out) ;;;
    call (control out) ;;;
    call (evolution out)
  end.
