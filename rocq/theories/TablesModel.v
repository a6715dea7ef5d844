(** Model of the writers and readers of tables: invisible_cities/io/dst_io.py, io/trigger_io.py,
    io/event_filter_io.py, io/run_and_event_io.py and io/hits_io.py *)
From Verif Require Import Base.
Local Open Scope nat_scope.

(** for dst_io.py 64-77: _check_castability *)
Definition TableMismatch : pyexc := Other 35.

(** ---- dst_io.py ---- *)
Section Frames.
  (** values, column types and names of columns *)
  Variables (V T : Type).
  Notation name := nat (only parsing).
  Variable is_object : T -> bool.          (** dtype "object", a column of strings *)
  Variable string_col : T.                 (** tb.StringCol(str_col_length) *)
  Variable can_cast : T -> T -> bool.      (** np.can_cast(..., casting='same_kind') *)
  Variable astype : T -> V -> result V.    (** the conversion of a value to the type of the column of the table *)

  (** a DataFrame or a table: named columns and rows with one value per column *)
  Record frame := { f_cols : list (name * T); f_rows : list (list V) }.
  (** a file: the tables found by group and name; None where there is no table *)
  Definition file := nat -> option frame.
  (** for dst_io.py 79-132: df_writer *)
  Definition put (h : file) (k : nat) (t : frame) : file := fun k' => if k' =? k then Some t else h k'.

  (** for dst_io.py 64-77: _check_castability *)
  Definition names (f : frame) : list name := map fst (f_cols f).
  (** for dst_io.py 64-77: _check_castability *)
  Definition mem (c : name) (l : list name) : bool := existsb (Nat.eqb c) l.
  (** for dst_io.py 64-77: _check_castability *)
  Definition same_set (a b : list name) : bool := forallb (fun c => mem c b) a && forallb (fun c => mem c a) b.

  (** dst_io.py 54-62: _make_tabledef *)
  Definition make_tabledef (cols : list (name * T)) : list (name * T) :=
    map (fun '(c, t) => (c, if is_object t then string_col else t)) cols.

  (** the type of a column *)
  Fixpoint type_of (cols : list (name * T)) (c : name) : option T :=
    match cols with [] => None | (c', t) :: cols => if c' =? c then Some t else type_of cols c end.

  (** dst_io.py 64-77: _check_castability. Strings that are too long only cause a warning. *)
  Definition check_castability (f : frame) (cols : list (name * T)) : result unit :=
    if same_set (names f) (map fst cols) then
      if forallb (fun '(c, t) => is_object t || match type_of cols c with Some t' => can_cast t t' | None => false end) (f_cols f)
      then Ok tt else Err TableMismatch
    else Err TableMismatch.

  (** arr[columns].astype(data_types) for one row *)
  Fixpoint field (cols : list (name * T)) (row : list V) (c : name) : result V :=
    match cols, row with
    | (c', _) :: cols, v :: row => if c' =? c then Ok v else field cols row c
    | _, _ => Err KeyError
    end.
  (** for dst_io.py 79-132: df_writer *)
  Definition convert_row (f : frame) (cols : list (name * T)) (row : list V) : result (list V) :=
    rmap (fun '(c, t) => rbind (field (f_cols f) row c) (astype t)) cols.

  (** dst_io.py 79-132: df_writer; [k] is the group and the name of the table, [index] columns_to_index. The new contents of the file and the result *)
  Definition df_writer (h : file) (f : frame) (k : nat) (index : option (list name)) : file * result unit :=
    let t := match h k with Some t => t | None => {| f_cols := make_tabledef (f_cols f); f_rows := [] |} end in
    let h := put h k t in
    let written :=
      match f_rows f with
      | [] => Ok t
      | _ => rbind (check_castability f (f_cols t)) (fun _ =>
             rbind (rmap (convert_row f (f_cols t)) (f_rows f)) (fun rows =>
             Ok {| f_cols := f_cols t; f_rows := f_rows t ++ rows |}))
      end in
    match written with
    | Err e => (h, Err e)
    | Ok t => (put h k t, match index with
                          | None => Ok tt
                          | Some l => if forallb (fun c => mem c (names f)) l then Ok tt else Err KeyError
                          end)
    end.

  (** a sequence of calls, stopping at the first exception *)
  Fixpoint write_frames (h : file) (fs : list frame) (k : nat) (index : option (list name)) : file * result unit :=
    match fs with
    | [] => (h, Ok tt)
    | f :: fs => let '(h, r) := df_writer h f k index in match r with Ok _ => write_frames h fs k index | Err e => (h, Err e) end
    end.

  (** dst_io.py 23-46: load_dst; [event_column] is the name "event" and [as_event] a value of that column as a number; [None]: no list of events.
      A missing table is a NoSuchNodeError. *)
  Variables (event_column : name) (as_event : V -> Z).
  (** for dst_io.py 23-46: load_dst *)
  Definition NoSuchNodeError : pyexc := Other 36.
  (** dst_io.py 23-46: load_dst *)
  Definition load_dst (h : file) (k : nat) (evt_list : option (list Z)) : result frame :=
    match h k with
    | None => Err NoSuchNodeError
    | Some t =>
      match evt_list with
      | None => Ok t
      | Some evs =>
        rbind (rmap (fun row => field (f_cols t) row event_column) (f_rows t)) (fun col =>
        Ok {| f_cols := f_cols t; f_rows := map snd (filter (fun p => existsb (Z.eqb (as_event (fst p))) evs) (combine col (f_rows t))) |})
      end
    end.
End Frames.
Arguments frame : clear implicits. Arguments f_cols {V T}. Arguments f_rows {V T}. Arguments names {V T}. Arguments put {V T}.
Arguments field {V T}. Arguments type_of {T}. Arguments make_tabledef {T}. Arguments check_castability {V T}. Arguments convert_row {V T}.
Arguments df_writer {V T}. Arguments write_frames {V T}. Arguments load_dst {V T}.

(** ---- trigger_io.py ---- *)
(** the two tables of the group Trigger *)
Record trigger_tables := { trg_types : list Z; trg_channels : list (list Z) }.
(** trigger_io.py 9-19: store_trigger; no trigger type is None, as 0 it is false. EArray.append of a row with another length raises ValueError. *)
Definition store_trigger (n_sensors : nat) (t : trigger_tables) (typ : option Z) (channels : option (list Z)) : result trigger_tables :=
  let types := match typ with Some z => if (z =? 0)%Z then trg_types t else trg_types t ++ [z] | None => trg_types t end in
  match channels with
  | None => Ok {| trg_types := types; trg_channels := trg_channels t |}
  | Some l => if length l =? n_sensors then Ok {| trg_types := types; trg_channels := trg_channels t ++ [l] |} else Err ValueError
  end.
(** a run of the writer *)
Fixpoint store_triggers (n_sensors : nat) (t : trigger_tables) (l : list (option Z * option (list Z))) : result trigger_tables :=
  match l with [] => Ok t | (a, b) :: l => rbind (store_trigger n_sensors t a b) (fun t => store_triggers n_sensors t l) end.

(** ---- run_and_event_io.py 25-47 ---- : the tables runInfo and events *)
Record run_tables := { run_info : list Z; event_info : list (Z * Z) }.
(** run_and_event_io.py 25-27: write_run_and_event *)
Definition write_run_and_event (t : run_tables) (run ev time : Z) : run_tables :=
  {| run_info := run_info t ++ [run]; event_info := event_info t ++ [(ev, time)] |}.

(** ---- event_filter_io.py ---- *)
(** event_filter_io.py 8-21: the tables of the group Filters, by name *)
Definition flags := list (nat * list (Z * bool)).
(** event_filter_writer called for the filter [k] *)
Definition make_filter (fl : flags) (k : nat) : flags := fl ++ [(k, [])].
(** event_filter_io.py 16-19: write_event_passed *)
Definition write_event_passed (fl : flags) (k : nat) (ev : Z) (passed : bool) : flags :=
  map (fun '(k', l) => if k' =? k then (k', l ++ [(ev, passed)]) else (k', l)) fl.
(** event_filter_io.py 24-34: event_filter_reader. The frames are joined on the event numbers, which pandas refuses when one is repeated
    (as long as the frames do not have the very same index: a file with one repeated event in all its filters is not modelled).
    The result: the columns, and one row per event *)
Definition find_flag (ev : Z) (l : list (Z * bool)) : option bool := option_map snd (find (fun p => (fst p =? ev)%Z) l).
(** for event_filter_io.py 24-34: event_filter_reader *)
Fixpoint dedup_from (seen l : list Z) : list Z :=
  match l with [] => [] | a :: l => if existsb (Z.eqb a) seen then dedup_from seen l else a :: dedup_from (a :: seen) l end.
(** for event_filter_io.py 24-34: event_filter_reader *)
Fixpoint repeatedb (l : list Z) : bool := match l with [] => false | a :: l => existsb (Z.eqb a) l || repeatedb l end.
(** event_filter_io.py 24-34: event_filter_reader *)
Definition event_filter_reader (fl : flags) : result (list nat * list (Z * list bool)) :=
  match fl with
  | [] => Err ValueError                                         (* pd.concat([]) *)
  | _ =>
    if existsb (fun '(_, l) => repeatedb (map fst l)) fl then Err NotModelled
    else Ok (map fst fl,
             map (fun ev => (ev, map (fun '(_, l) => match find_flag ev l with Some b => b | None => false end) fl))
                 (dedup_from [] (flat_map (fun '(_, l) => map fst l) fl)))
  end.

(** ---- hits_io.py ---- *)
Section HitTable.
  (** a row of a table of hits; only the columns that decide where the hit goes are named *)
  Variable R : Type.
  Variables (h_event : R -> Z) (h_time : option (R -> Q)) (is_NN : R -> bool).
  (** hits_io.py 33: the time, -1 if there is no such column *)
  Definition time_of (r : R) : Q := match h_time with Some f => f r | None => -1 end.

  (** hits_io.py 34: groupby(['event', times]): the groups in increasing order of event and time, the rows of a group in the order of the table *)
  Definition same_key (r : R) (k : Z * Q) : bool := (h_event r =? fst k)%Z && Qeqb (time_of r) (snd k).
  (** for hits_io.py 17-70: hits_from_df *)
  Definition before_key (r : R) (k : Z * Q) : bool := (h_event r <? fst k)%Z || ((h_event r =? fst k)%Z && Qltb (time_of r) (snd k)).
  (** for hits_io.py 17-70: hits_from_df *)
  Fixpoint add_row (r : R) (gs : list ((Z * Q) * list R)) : list ((Z * Q) * list R) :=
    match gs with
    | [] => [((h_event r, time_of r), [r])]
    | (k, l) :: gs =>
      if same_key r k then (k, l ++ [r]) :: gs
      else if before_key r k then ((h_event r, time_of r), [r]) :: (k, l) :: gs
      else (k, l) :: add_row r gs
    end.
  (** for hits_io.py 17-70: hits_from_df *)
  Definition groupby (dst : list R) : list ((Z * Q) * list R) := fold_left (fun gs r => add_row r gs) dst [].

  (** all_events[event] = ... *)
  Fixpoint set_event (d : list (Z * (Q * list R))) (ev : Z) (c : Q * list R) : list (Z * (Q * list R)) :=
    match d with
    | [] => [(ev, c)]
    | (e, c') :: d => if (e =? ev)%Z then (e, c) :: d else (e, c') :: set_event d ev c
    end.

  (** hits_io.py 17-70: hits_from_df. A HitCollection is its time and the rows its hits are made of. *)
  Definition hits_from_df (dst : list R) (skip_NN : bool) : list (Z * (Q * list R)) :=
    fold_left (fun d '((ev, t), l) =>
      match filter (fun r => negb (skip_NN && is_NN r)) l with [] => d | hits => set_event d ev (t, hits) end) (groupby dst) [].
End HitTable.

(** irene.py 154: fork(write_event_info, write_trigger_info): an event is its run, number, time, trigger type and trigger channels *)
Record event_row := { e_run : Z; e_number : Z; e_time : Z; e_type : option Z; e_channels : option (list Z) }.
(** for irene.py 154: fork *)
Definition write_event (n_sensors : nat) (s : run_tables * trigger_tables) (e : event_row) : result (run_tables * trigger_tables) :=
  rbind (store_trigger n_sensors (snd s) (e_type e) (e_channels e)) (fun t =>
  Ok (write_run_and_event (fst s) (e_run e) (e_number e) (e_time e), t)).
(** with irene.py 154: fork *)
Fixpoint write_events (n_sensors : nat) (s : run_tables * trigger_tables) (l : list event_row) : result (run_tables * trigger_tables) :=
  match l with [] => Ok s | e :: l => rbind (write_event n_sensors s e) (fun s => write_events n_sensors s l) end.
(** with irene.py 154: fork *)
Definition no_events : run_tables * trigger_tables := ({| run_info := []; event_info := [] |}, {| trg_types := []; trg_channels := [] |}).

(** a run of the writers of several filters: the filters are created, then the flags of the events are written *)
Definition write_flags (ks : list nat) (ops : list (nat * Z * bool)) : flags :=
  fold_left (fun fl '(k, ev, b) => write_event_passed fl k ev b) ops (fold_left make_filter ks []).
