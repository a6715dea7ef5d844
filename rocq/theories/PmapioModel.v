(** Model of invisible_cities/io/pmaps_io.py: writing and reading PMaps.
    A table is the list of its rows. *)
From Verif Require Import Base PeaksModel BuffersModel.
Local Open Scope nat_scope.

(** evm/nh5.py 85-122: the rows of the tables S1/S2 and of the tables S1Pmt/S2Pmt/S2Si *)
Record sum_row := { s_event : Z; s_peak : nat; s_time : Q; s_bwidth : Q; s_ene : Q }.
(** for pmaps_io.py 33-39 and 44-50 *)
Record sensor_row := { r_event : Z; r_peak : nat; r_sensor : nat; r_ene : Q }.
(** for pmaps_io.py 33-39 and 44-50 *)
Record pm_tables := { t_s1 : list sum_row; t_s2 : list sum_row; t_si : list sensor_row; t_s1pmt : list sensor_row; t_s2pmt : list sensor_row }.
(** for pmaps_io.py 53-58: store_pmap *)
Record pmap := { s1s : list peak; s2s : list peak }.

(** for pmaps_io.py 85-90: check_file_integrity *)
Definition InvalidInputFileStructure : pyexc := Other 34.

(** core_functions.py 363-370; np.iinfo(np.uint16).max *)
Definition u16max : nat := N.to_nat 65535.
(** core_functions.py 363-370: overflow_protection *)
Definition overflow_protection (v upper : nat) : nat := if upper <? v then upper else v.

(** evm/pmaps.py 138-141: dict(zip(ids, waveforms))[id], the last waveform with that id *)
Definition waveform (r : responses) (id : nat) : result (list Q) :=
  match find (fun p => fst p =? id) (rev (combine (r_ids r) (rows (r_wfs r)))) with
  | Some p => Ok (snd p)
  | None => Err KeyError
  end.

Section Storage.
  (** the value of a Float32 column when [x] is stored in it *)
  Variable f32 : Q -> Q.

  (** pmaps_io.py 25-31: the rows of a peak in the table of sums *)
  Definition sum_rows (p : peak) (n : nat) (ev : Z) : result (list sum_row) :=
    rmap (fun i =>
      match nth_error (p_times p) i, nth_error (p_widths p) i, nth_error (pmt_sum p) i with
      | Some t, Some w, Some e => Ok {| s_event := ev; s_peak := overflow_protection n u16max; s_time := f32 t; s_bwidth := f32 w; s_ene := f32 e |}
      | _, _, _ => Err IndexError
      end) (seq 0 (length (p_times p))).

  (** pmaps_io.py 33-39 and 44-50: the rows of a peak in a table of sensors *)
  Definition sensor_rows (r : responses) (n : nat) (ev : Z) : result (list sensor_row) :=
    rbind (rmap (fun id => rbind (waveform r id) (fun wf =>
      Ok (map (fun e => {| r_event := ev; r_peak := overflow_protection n u16max; r_sensor := id; r_ene := f32 e |}) wf))) (r_ids r)) (fun l => Ok (concat l)).

  (** with pmaps_io.py 33-39 and 44-50 *)
  Definition empty_tables : pm_tables := {| t_s1 := []; t_s2 := []; t_si := []; t_s1pmt := []; t_s2pmt := [] |}.

  (** pmaps_io.py 19-58: store_peak and store_pmap. The two loops of store_pmap *)
  Fixpoint store_s1s (t : pm_tables) (l : list peak) (n : nat) (ev : Z) : result pm_tables :=
    match l with
    | [] => Ok t
    | p :: l =>
      rbind (sum_rows p n ev) (fun a => rbind (sensor_rows (p_pmts p) n ev) (fun b =>
      store_s1s {| t_s1 := t_s1 t ++ a; t_s2 := t_s2 t; t_si := t_si t; t_s1pmt := t_s1pmt t ++ b; t_s2pmt := t_s2pmt t |} l (S n) ev))
    end.
  (** for pmaps_io.py 53-58: store_pmap *)
  Fixpoint store_s2s (t : pm_tables) (l : list peak) (n : nat) (ev : Z) : result pm_tables :=
    match l with
    | [] => Ok t
    | p :: l =>
      rbind (sum_rows p n ev) (fun a => rbind (sensor_rows (p_pmts p) n ev) (fun b => rbind (sensor_rows (p_sipms p) n ev) (fun c =>
      store_s2s {| t_s1 := t_s1 t; t_s2 := t_s2 t ++ a; t_si := t_si t ++ c; t_s1pmt := t_s1pmt t; t_s2pmt := t_s2pmt t ++ b |} l (S n) ev)))
    end.
  (** pmaps_io.py 53-58: store_pmap *)
  Definition store_pmap (t : pm_tables) (ev : Z) (pm : pmap) : result pm_tables :=
    rbind (store_s1s t (s1s pm) 0 ev) (fun t => store_s2s t (s2s pm) 0 ev).

  (** a run of the writer *)
  Fixpoint store_pmaps (t : pm_tables) (l : list (Z * pmap)) : result pm_tables :=
    match l with [] => Ok t | (ev, pm) :: l => rbind (store_pmap t ev pm) (fun t => store_pmaps t l) end.
End Storage.

(** pmaps_io.py 85-90: check_file_integrity; equality of sets *)
Definition table_events (t : pm_tables) : list Z := map s_event (t_s1 t) ++ map s_event (t_s2 t).
(** for pmaps_io.py 85-90: check_file_integrity *)
Definition subsetb (l m : list Z) : bool := forallb (fun a => existsb (Z.eqb a) m) l.
(** pmaps_io.py 85-90: check_file_integrity *)
Definition check_file_integrity (run_events : list Z) (t : pm_tables) : result unit :=
  if subsetb run_events (table_events t) && subsetb (table_events t) run_events then Ok tt else Err InvalidInputFileStructure.

(** pandas.unique: the distinct values in order of appearance *)
Fixpoint unique_from (seen l : list nat) : list nat :=
  match l with [] => [] | a :: l => if existsb (Nat.eqb a) seen then unique_from seen l else a :: unique_from (a :: seen) l end.
(** for pmaps_io.py 313-333: build_pmt_responses *)
Definition unique (l : list nat) : list nat := unique_from [] l.

(** array.reshape(k, n) *)
Fixpoint chunks (k n : nat) (l : list Q) : list (list Q) :=
  match k with O => [] | S k => firstn n l :: chunks k n (skipn n l) end.
(** for pmaps_io.py 313-333: build_pmt_responses *)
Definition reshape (k n : nat) (l : list Q) : result mat :=
  if length l =? k * n then Ok {| cols := n; rows := chunks k n l |} else Err ValueError.

(** pmaps_io.py 313-333: build_pmt_responses. Files without bin widths: OldPmModel.v. *)
Definition build_pmt_responses (sums : list sum_row) (pmts : list sensor_row) : result (list Q * list Q * responses) :=
  let ids := unique (map r_sensor pmts) in
  rbind (reshape (length ids) (length sums) (map r_ene pmts)) (fun m =>
  rbind (mk_responses ids m) (fun r => Ok (map s_time sums, map s_bwidth sums, r))).

(** pmaps_io.py 336-343: build_sipm_responses *)
Definition build_sipm_responses (rs : list sensor_row) : result responses :=
  match rs with
  | [] => Ok empty_responses
  | _ =>
    let ids := unique (map r_sensor rs) in
    rbind (reshape (length ids) (length rs / length ids) (map r_ene rs)) (fun m => mk_responses ids m)
  end.

(** set(df.peak) as iterated by Python. The numbers of the peaks of an event are 0, 1, ..., and a
    set of such integers is iterated in increasing order. *)
Definition peak_numbers (l : list sum_row) : list nat := fold_right insert_id [] (map s_peak l).

(** pmaps_io.py 346-371: s1s_from_df and s2s_from_df *)
Definition of_peak_s (n : nat) (l : list sum_row) : list sum_row := filter (fun r => s_peak r =? n) l.
(** for pmaps_io.py 346-357: s1s_from_df *)
Definition of_peak_r (n : nat) (l : list sensor_row) : list sensor_row := filter (fun r => r_peak r =? n) l.
(** pmaps_io.py 346-357: s1s_from_df *)
Definition s1s_from_df (sums : list sum_row) (pmts : list sensor_row) : result (list peak) :=
  rmap (fun n => rbind (build_pmt_responses (of_peak_s n sums) (of_peak_r n pmts)) (fun '(t, w, r) =>
                 mk_peak t w r empty_responses)) (peak_numbers sums).
(** pmaps_io.py 360-371: s2s_from_df *)
Definition s2s_from_df (sums : list sum_row) (pmts sipms : list sensor_row) : result (list peak) :=
  rmap (fun n => rbind (build_pmt_responses (of_peak_s n sums) (of_peak_r n pmts)) (fun '(t, w, r) =>
                 rbind (build_sipm_responses (of_peak_r n sipms)) (fun s =>
                 mk_peak t w r s))) (peak_numbers sums).

(** the rows of an event: groupby("event").groups and read_where *)
Definition of_event_s (ev : Z) (l : list sum_row) : list sum_row := filter (fun r => (s_event r =? ev)%Z) l.
(** for pmaps_io.py 225-279: load_pmaps_eager *)
Definition of_event_r (ev : Z) (l : list sensor_row) : list sensor_row := filter (fun r => (r_event r =? ev)%Z) l.
(** for pmaps_io.py 225-279: load_pmaps_eager *)
Definition load_event (t : pm_tables) (ev : Z) : result pmap :=
  rbind (s1s_from_df (of_event_s ev (t_s1 t)) (of_event_r ev (t_s1pmt t))) (fun a =>
  rbind (s2s_from_df (of_event_s ev (t_s2 t)) (of_event_r ev (t_s2pmt t)) (of_event_r ev (t_si t))) (fun b =>
  Ok {| s1s := a; s2s := b |})).

(** pmaps_io.py 225-279: load_pmaps_eager. The dictionary is a list of pairs; its order, which is that
    of a set of numbers, is not part of the result. Files without the tables of the individual PMTs: OldPmModel.v. *)
Definition load_pmaps_eager (run_events : list Z) (t : pm_tables) : result (list (Z * pmap)) :=
  rbind (check_file_integrity run_events t) (fun _ =>
  rmap (fun ev => rbind (load_event t ev) (fun pm => Ok (ev, pm))) (nodup Z.eq_dec (table_events t))).

(** pmaps_io.py 176-190 and 282-310: load_pmaps_lazy, all its values *)
Definition load_pmaps_lazy (run_events : list Z) (t : pm_tables) (skip : nat) (n : option nat) : result (list (Z * pmap)) :=
  rbind (check_file_integrity run_events t) (fun _ =>
  let n := match n with Some n => n | None => length run_events end in
  rmap (fun ev => rbind (load_event t ev) (fun pm =>
        match of_event_s ev (t_s1 t) ++ of_event_s ev (t_s2 t) with
        | [] => Err IndexError
        | r :: _ => Ok (s_event r, pm)
        end)) (slice skip (skip + n) run_events)).
