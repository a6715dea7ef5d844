(** Model of the reader of PMaps of the cities: cities/components.py 592-613 (pmap_from_files), with the lazy loader of io/pmaps_io.py 151-190, 282-310 *)
From Verif Require Import Base PeaksModel BuffersModel ReadModel PmapioModel.
Local Open Scope nat_scope.

(** a file of PMaps: None is a missing group PMAPS, table of runs or table of events. The tables of the individual PMTs are there. *)
Record pfile := { pf_tables : option pm_tables; pf_runs : option (list Z); pf_events : option (list (Z * Q)) }.
(** for components.py 608-613 *)
Record pitem := { pi_pmap : pmap; pi_run : Z; pi_event : Z; pi_time : Q }.

(** pmaps_io.py 301-310: the next value of the loader *)
Definition lazy_event (t : pm_tables) (ev : Z) : result (Z * pmap) :=
  rbind (match of_event_s ev (t_s1 t) ++ of_event_s ev (t_s2 t) with [] => Err IndexError | r :: _ => Ok (s_event r) end) (fun n =>
  rbind (load_event t ev) (fun pm => Ok (n, pm))).

(** components.py 608-613: the loop over the events of a file. The loader goes through the same table of events. *)
Fixpoint pmap_events (t : pm_tables) (run : Z) (events : list (Z * Q)) : generated pitem :=
  match events with
  | [] => ([], None)
  | (ev, time) :: events =>
    match lazy_event t ev with
    | Err e => ([], Some e)
    | Ok (n, pm) =>
      if Z.eqb ev n then
        let (l, e) := pmap_events t run events in ({| pi_pmap := pm; pi_run := run; pi_event := ev; pi_time := time |} :: l, e)
      else ([], Some InvalidInputFileStructure)
    end
  end.

(** components.py 594-613: one file. The loader is a generator: it opens the file and checks it when the first event is asked for, outside the
    [try] of lines 594-597. *)
Definition pmap_from_file (f : pfile) : generated pitem :=
  match run_of (pf_runs f), pf_events f with
  | Some run, Some events =>
    match events with
    | [] => ([], None)
    | _ =>
      match pf_tables f with
      | None => ([], Some NoSuchNodeError)
      | Some t =>
        match check_file_integrity (map fst events) t with
        | Err e => ([], Some e)
        | Ok _ => pmap_events t run events
        end
      end
    end
  | _, _ => ([], None)
  end.
(** components.py 592-613: pmap_from_files *)
Definition pmap_from_files (files : list pfile) : generated pitem := over_files pmap_from_file files.
