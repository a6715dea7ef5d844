(** Model of a run of sophronia: cities/sophronia.py 153-242, with the reader of PMaps (PreadModel.v), the selection of peaks (FiltersModel.v), the
    pointlike events (KrModel.v, DorModel.v) and the hits of an event (SoeModel.v) *)
From Verif Require Import Base PeaksModel BuffersModel ReadModel PmapioModel FiltersModel XyModel HitsModel CorrModel EsmModel SophModel SoeModel KrModel PreadModel DorModel.
Local Open Scope nat_scope.

(** what a run writes and counts: the rows of Filters/s12_selector and Filters/valid_hit, of DST/Events, of RECO/Events (with the event number) and
    of Run, the list of event numbers, the numbers of events in and out and those that pass the selection of peaks and do not. *)
Record sout := { so_filter : list (Z * bool); so_valid : list (Z * bool); so_rows : list krrow; so_hits : list (Z * hit); so_info : list (Z * Z * Q); so_numbers : list Z;
                 so_in : nat; so_out : nat; so_passed : nat; so_failed : nat }.
(** for sophronia.py 80-249 *)
Definition nothing_done : sout := {| so_filter := []; so_valid := []; so_rows := []; so_hits := []; so_info := []; so_numbers := []; so_in := 0; so_out := 0; so_passed := 0; so_failed := 0 |}.

Section Sophronia.
  Variable nearest : list (Q * Q * Q) -> Q * Q * Q -> nat.
  Variables (sipm_xys : list (Q * Q)) (drift_v : Q) (sipm_noise : list nat -> list Q -> Z -> list Q) (sample_width : Q -> Z) (ctype : charge_type).
  Variables (sqrt : Q -> Q) (arctan2 : Q -> Q -> Q) (qthr : Q).

  (** components.py 938-955 and 1047-1050: the position of a peak, with the barycenter; Ok None is an XYRecoFail. *)
  Definition positions (xys : list (Q * Q)) (qs : list Q) : result (option (list (Q * Q))) :=
    match barycenter (combine xys qs) qthr with
    | Ok c => Ok (Some [(cx c, cy c)])
    | Err e => if xy_reco_fail e then Ok None else Err e
    end.

  (** sophronia.py 158-202, 219-237: the events, one after the other; in each, the branch of the pointlike events goes first. Without
      clustering parameters (the column they add is that of TagModel.v). *)
  Fixpoint sophronia_run (s : selector) (rebin method : arg) (q_thr : Q) (same_peak : bool) (corr : option corrections) (items : list pitem) (o : sout) : result sout :=
    match items with
    | [] => Ok o
    | it :: items =>
      let sel := pmap_filter s (pi_pmap it) in
      let flags := so_filter o ++ [(pi_event it, passed sel)] in
      if passed sel then
        rbind (build_pointlike_event sipm_xys drift_v (charge_single sipm_noise sample_width ctype) (rms sqrt) (reco sqrt arctan2 qthr) (pi_pmap it) sel (pi_event it) (pi_time it)) (fun e =>
        rbind (kr_store e) (fun rows =>
        rbind (sophronia_hits nearest sipm_xys drift_v sipm_noise sample_width ctype positions s rebin method q_thr same_peak corr (pi_pmap it) (pi_event it) (pi_time it)) (fun h =>
        let '(valid, hits) := match h with Some (Some l) => (true, map (pair (pi_event it)) l) | _ => (false, []) end in
        sophronia_run s rebin method q_thr same_peak corr items
          {| so_filter := flags; so_valid := so_valid o ++ [(pi_event it, valid)]; so_rows := so_rows o ++ rows; so_hits := so_hits o ++ hits;
             so_info := so_info o ++ [(pi_run it, pi_event it, pi_time it)]; so_numbers := so_numbers o ++ [pi_event it];
             so_in := S (so_in o); so_out := S (so_out o); so_passed := S (so_passed o); so_failed := so_failed o |})))
      else
        sophronia_run s rebin method q_thr same_peak corr items
          {| so_filter := flags; so_valid := so_valid o; so_rows := so_rows o; so_hits := so_hits o; so_info := so_info o; so_numbers := so_numbers o;
             so_in := S (so_in o); so_out := so_out o; so_passed := so_passed o; so_failed := S (so_failed o) |}
    end.
  (** sophronia.py 80-249, for all the events of the files. An exception of the reader reaches the caller. Not modelled: the copies of the
      simulation and of the database, and the range of events (C73). *)
  Definition sophronia (c : limits) (rebin method : arg) (q_thr : Q) (same_peak : bool) (corr : option corrections) (files : list pfile) : result sout :=
    rbind (mk_selector c) (fun s =>
    let (items, e) := pmap_from_files files in
    rbind (sophronia_run s rebin method q_thr same_peak corr items nothing_done) (fun o => match e with None => Ok o | Some e => Err e end)).
End Sophronia.
