(** Model of invisible_cities/io/pmaps_io.py for PMap files of older versions: without the tables of individual PMTs, or without the widths of the samples.
    The rest of the reader is in PmapioModel.v. Exact arithmetic. *)
From Coq Require Import Qround.
From Verif Require Import Base PeaksModel BuffersModel PmapioModel.
From Verif Require DetsimModel.
Local Open Scope nat_scope.

(** the tables S1Pmt and S2Pmt may be missing, and so may the column bwidth of S1 and S2 (then s_bwidth is not looked at) *)
Record old_file := { o_tables : pm_tables; o_s1pmt : bool; o_s2pmt : bool; o_widths : bool }.

(** rows of individual PMTs: the number of the PMT is -1 when it is unknown *)
Record irow := { i_event : Z; i_peak : nat; i_sensor : Z; i_ene : Q }.
(** for pmaps_io.py 240-242, 302-304 *)
Definition of_sensor (r : sensor_row) : irow := {| i_event := r_event r; i_peak := r_peak r; i_sensor := Z.of_nat (r_sensor r); i_ene := r_ene r |}.
(** pmaps_io.py 194-198: _build_ipmtdf_from_sumdf *)
Definition of_sum (r : sum_row) : irow := {| i_event := s_event r; i_peak := s_peak r; i_sensor := -1; i_ene := s_ene r |}.
(** pmaps_io.py 240-242, 302-304 *)
Definition individual (present : bool) (pmts : list sensor_row) (sums : list sum_row) : list irow := if present then map of_sensor pmts else map of_sum sums.

(** PMTResponses and peaks with such numbers of sensors *)
Record iresponses := { z_ids : list Z; z_wfs : mat }.
(** for pmaps_io.py 176-190 and 282-310: load_pmaps_lazy *)
Record ipeak := { ip_times : list Q; ip_widths : list Q; ip_pmts : iresponses; ip_sipms : responses }.
(** for pmaps_io.py 176-190 and 282-310: load_pmaps_lazy *)
Record ipmap := { is1s : list ipeak; is2s : list ipeak }.

(** numpy.diff, and rounding to the nearest thousand *)
Fixpoint diff (l : list Q) : list Q := match l with a :: ((b :: _) as l') => (b - a)%Q :: diff l' | _ => [] end.
(** for pmaps_io.py 317-329 *)
Definition round_thousand (q : Q) : Q := (inject_Z (DetsimModel.np_round (q / 1000)) * 1000)%Q.
(** pmaps_io.py 317-329 *)
Definition fake_widths (times : list Q) : list Q :=
  match diff times with
  | [] => [1000%Q]
  | d :: ds => if forallb (fun x => Qeqb x d) (d :: ds) then repeat d (length times)
               else repeat (round_thousand (fold_left qmax ds d)) (length times)
  end.

(** for pmaps_io.py 313-333: build_pmt_responses *)
Fixpoint uniqueZ_from (seen l : list Z) : list Z :=
  match l with [] => [] | a :: l => if existsb (Z.eqb a) seen then uniqueZ_from seen l else a :: uniqueZ_from (a :: seen) l end.
(** pmaps_io.py 313-333: build_pmt_responses *)
Definition build_old_responses (widths : bool) (sums : list sum_row) (pmts : list irow) : result (list Q * list Q * iresponses) :=
  let ws := if widths then map s_bwidth sums else fake_widths (map s_time sums) in
  let ids := uniqueZ_from [] (map i_sensor pmts) in
  rbind (reshape (length ids) (length sums) (map i_ene pmts)) (fun m =>
  if negb (length ids =? length (rows m)) then Err ValueError else Ok (map s_time sums, ws, {| z_ids := ids; z_wfs := m |})).
(** evm/pmaps.py 27-33, 87-101 as in PeaksModel.v mk_peak *)
Definition mk_ipeak (times widths : list Q) (pmts : iresponses) (sipms : responses) : result ipeak :=
  rbind (check_valid_input times {| r_ids := []; r_wfs := z_wfs pmts |} sipms) (fun _ =>
  Ok {| ip_times := times; ip_widths := widths; ip_pmts := pmts; ip_sipms := sipms |}).

(** for pmaps_io.py 346-371 *)
Definition of_peak_i (n : nat) (l : list irow) : list irow := filter (fun r => i_peak r =? n) l.
(** for pmaps_io.py 225-279: load_pmaps_eager *)
Definition of_event_i (ev : Z) (l : list irow) : list irow := filter (fun r => (i_event r =? ev)%Z) l.
(** pmaps_io.py 346-371 *)
Definition old_s1s (w : bool) (sums : list sum_row) (pmts : list irow) : result (list ipeak) :=
  rmap (fun n => rbind (build_old_responses w (of_peak_s n sums) (of_peak_i n pmts)) (fun '(t, ws, r) => mk_ipeak t ws r empty_responses)) (peak_numbers sums).
(** for pmaps_io.py 176-190 and 282-310: load_pmaps_lazy *)
Definition old_s2s (w : bool) (sums : list sum_row) (pmts : list irow) (sipms : list sensor_row) : result (list ipeak) :=
  rmap (fun n => rbind (build_old_responses w (of_peak_s n sums) (of_peak_i n pmts)) (fun '(t, ws, r) =>
                 rbind (build_sipm_responses (of_peak_r n sipms)) (fun s => mk_ipeak t ws r s))) (peak_numbers sums).

(** for pmaps_io.py 176-190 and 282-310: load_pmaps_lazy *)
Definition old_event (f : old_file) (s1pmt s2pmt : list irow) (ev : Z) : result ipmap :=
  let t := o_tables f in
  rbind (old_s1s (o_widths f) (of_event_s ev (t_s1 t)) s1pmt) (fun a =>
  rbind (old_s2s (o_widths f) (of_event_s ev (t_s2 t)) s2pmt (of_event_r ev (t_si t))) (fun b => Ok {| is1s := a; is2s := b |})).

(** pmaps_io.py 176-190 and 282-310: load_pmaps_lazy. The rows of the event are read first and the missing tables are made from them *)
Definition load_old_lazy (run_events : list Z) (f : old_file) (skip : nat) (n : option nat) : result (list (Z * ipmap)) :=
  let t := o_tables f in
  rbind (check_file_integrity run_events t) (fun _ =>
  let n := match n with Some n => n | None => length run_events end in
  rmap (fun ev =>
    let s1 := of_event_s ev (t_s1 t) in let s2 := of_event_s ev (t_s2 t) in
    match s1 ++ s2 with
    | [] => Err IndexError
    | r :: _ => rbind (old_event f (individual (o_s1pmt f) (of_event_r ev (t_s1pmt t)) s1) (individual (o_s2pmt f) (of_event_r ev (t_s2pmt t)) s2) ev) (fun pm => Ok (s_event r, pm))
    end) (slice skip (skip + n) run_events)).

(** frame.iloc[labels of the rows of an event]. The labels of a table made by _build_ipmtdf_from_sumdf are strings (rename(index=str)), and iloc refuses
    any that is not a number: IndexError *)
Definition iloc (labels_are_numbers : bool) (rows : list irow) : result (list irow) :=
  match rows with [] => Ok [] | _ => if labels_are_numbers then Ok rows else Err IndexError end.
(** pmaps_io.py 225-279: load_pmaps_eager *)
Definition load_old_eager (run_events : list Z) (f : old_file) : result (list (Z * ipmap)) :=
  let t := o_tables f in
  rbind (check_file_integrity run_events t) (fun _ =>
  rmap (fun ev =>
    rbind (iloc (o_s1pmt f) (of_event_i ev (individual (o_s1pmt f) (t_s1pmt t) (t_s1 t)))) (fun s1pmt =>
    rbind (old_s1s (o_widths f) (of_event_s ev (t_s1 t)) s1pmt) (fun a =>
    rbind (iloc (o_s2pmt f) (of_event_i ev (individual (o_s2pmt f) (t_s2pmt t) (t_s2 t)))) (fun s2pmt =>
    rbind (old_s2s (o_widths f) (of_event_s ev (t_s2 t)) s2pmt (of_event_r ev (t_si t))) (fun b => Ok (ev, {| is1s := a; is2s := b |})))))) (nodup Z.eq_dec (table_events t))).
