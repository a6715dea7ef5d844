(** Model of a run of irene: invisible_cities/cities/irene.py 130-173 and compute_and_write_pmaps (invisible_cities/cities/components.py 1300-1346),
    with the writers of PMaps (io/pmaps_io.py) and of event information (io/run_and_event_io.py) *)
From Verif Require Import Base PeaksModel BuffersModel PmapioModel CalibModel IreneModel.
Local Open Scope nat_scope.

(** an event of the input: its number, its timestamp and its raw waveforms *)
Record raw_event := { re_number : Z; re_time : Q; re_pmt : list (list Z); re_sipm : list (list Z) }.
(** what a run writes (the tables of PMaps and the numbers and timestamps of Run/events) and counts. The tables of the filters, the triggers,
    the run number and the constants of the database are left out: C74 and C86 speak of them. *)
Record irene_out := { io_tables : pm_tables; io_events : list (Z * Q); io_in : nat; io_out : nat }.
(** with invisible_cities/cities/irene.py 130-173 *)
Definition nothing_written : irene_out := {| io_tables := empty_tables; io_events := []; io_in := 0; io_out := 0 |}.

(** irene.py 148-165: the events in range, one after the other; an event without a PMap goes no further than the filters *)
Fixpoint irene_run (f32 : Q -> Q) (event : list (list Z) -> list (list Z) -> result (option (list peak * list peak))) (events : list raw_event) (o : irene_out) : result irene_out :=
  match events with
  | [] => Ok o
  | e :: events =>
    rbind (event (re_pmt e) (re_sipm e)) (fun pm =>
    match pm with
    | None => irene_run f32 event events {| io_tables := io_tables o; io_events := io_events o; io_in := S (io_in o); io_out := io_out o |}
    | Some (s1s, s2s) =>
      rbind (store_pmap f32 (io_tables o) (re_number e) {| s1s := s1s; s2s := s2s |}) (fun t =>
      irene_run f32 event events {| io_tables := t; io_events := io_events o ++ [(re_number e, re_time e)]; io_in := S (io_in o); io_out := S (io_out o) |})
    end)
  end.
