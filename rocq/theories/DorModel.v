(** Model of a run of dorothea: cities/dorothea.py 99-141, with the reader of PMaps (PreadModel.v), the selection of peaks (FiltersModel.v), the
    pointlike events (KrModel.v) and the barycenter (XyModel.v) *)
From Verif Require Import Base PeaksModel BuffersModel ReadModel PmapioModel FiltersModel XyModel SophModel KrModel PreadModel.
Local Open Scope nat_scope.

(** what a run writes and counts: the rows of Filters/s12_selector, of DST/Events and of Run (run, event and timestamp), the list of event numbers,
    the numbers of events in and out and those that pass the selection and do not. *)
Record dout := { do_filter : list (Z * bool); do_rows : list krrow; do_info : list (Z * Z * Q); do_numbers : list Z; do_in : nat; do_out : nat; do_passed : nat; do_failed : nat }.
(** for dorothea.py 68-148 *)
Definition no_output : dout := {| do_filter := []; do_rows := []; do_info := []; do_numbers := []; do_in := 0; do_out := 0; do_passed := 0; do_failed := 0 |}.

(** core/exceptions.py: the exceptions derived from XYRecoFail *)
Definition xy_reco_fail (e : pyexc) : bool :=
  match e with Other n => (10 <=? n) && (n <=? 14) | _ => false end.

Section Dorothea.
  Variables (sipm_xys : list (Q * Q)) (drift_v : Q) (sipm_noise : list nat -> list Q -> Z -> list Q) (sample_width : Q -> Z) (ctype : charge_type).
  (** square root and numpy.arctan2 *)
  Variables (sqrt : Q -> Q) (arctan2 : Q -> Q -> Q).
  (** the parameter Qthr of global_reco_params; the algorithm is the barycenter *)
  Variable qthr : Q.

  (** evm/event_model.py 112-150 and types/ic_types.py 20-47: the attributes of a cluster *)
  Definition attributes (c : XyModel.cluster) : krcluster :=
    {| k_nsipm := Some (qn (cn c)); k_Q := Some (XyModel.cQ c); k_X := Some (cx c); k_Y := Some (cy c); k_Xrms := Some (sqrt (cvx c)); k_Yrms := Some (sqrt (cvy c));
       k_R := Some (sqrt (cx c * cx c + cy c * cy c)); k_Phi := Some (arctan2 (cy c) (cx c)) |}%Q.
  (** components.py 938-955 and 1001-1003: the barycenter; Ok None is an XYRecoFail. Arrays of different lengths are not modelled. *)
  Definition reco (xys : list (Q * Q)) (qs : list Q) : result (option (list krcluster)) :=
    if negb (length xys =? length qs) then Err NotModelled else
    match barycenter (combine xys qs) qthr with
    | Ok c => Ok (Some [attributes c])
    | Err e => if xy_reco_fail e then Ok None else Err e
    end.
  (** evm/pmaps.py 62-69: the rms. The square root of 0 is 0; that of a negative number, NaN, is not modelled. *)
  Definition rms (p : peak) : Q := sqrt (rms2_above_threshold p 0).

  (** dorothea.py 125-137: the events, one after the other *)
  Fixpoint dorothea_run (s : selector) (items : list pitem) (o : dout) : result dout :=
    match items with
    | [] => Ok o
    | it :: items =>
      let sel := pmap_filter s (pi_pmap it) in
      let flags := do_filter o ++ [(pi_event it, passed sel)] in
      if passed sel then
        rbind (build_pointlike_event sipm_xys drift_v (charge_single sipm_noise sample_width ctype) rms reco (pi_pmap it) sel (pi_event it) (pi_time it)) (fun e =>
        rbind (kr_store e) (fun rows =>
        dorothea_run s items {| do_filter := flags; do_rows := do_rows o ++ rows; do_info := do_info o ++ [(pi_run it, pi_event it, pi_time it)];
                                do_numbers := do_numbers o ++ [pi_event it]; do_in := S (do_in o); do_out := S (do_out o); do_passed := S (do_passed o); do_failed := do_failed o |}))
      else
        dorothea_run s items {| do_filter := flags; do_rows := do_rows o; do_info := do_info o; do_numbers := do_numbers o; do_in := S (do_in o); do_out := do_out o;
                                do_passed := do_passed o; do_failed := S (do_failed o) |}
    end.
  (** dorothea.py 68-148, for all the events of the files. An exception of the reader reaches the caller. Not modelled: the copies of the
      simulation and of the database, and the range of events (C73). *)
  Definition dorothea (c : limits) (files : list pfile) : result dout :=
    rbind (mk_selector c) (fun s =>
    let (items, e) := pmap_from_files files in
    rbind (dorothea_run s items no_output) (fun o => match e with None => Ok o | Some e => Err e end)).
End Dorothea.
