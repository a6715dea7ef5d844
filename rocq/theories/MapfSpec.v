(** What C127 says *)
From Coq Require Import String.
From Verif Require Import Base PsfModel ZrunModel HaltBase MapfModel.
Local Open Scope nat_scope.

(** the input files that eutropia uses, and the exception of the first file that cannot be opened, after which no file is read *)
Inductive uses : list efile -> list eitem -> option pyexc -> Prop :=
| uses_nil : uses [] [] None
| uses_opened it files items stop : uses files items stop -> uses (Opened it :: files) (it :: items) stop
| uses_without files items stop : uses files items stop -> uses (Without :: files) items stop
| uses_broken e files : uses (Broken e :: files) [] (Some e).
(** the rows of Run/runInfo and Run/events for some input files: all their events in order, each with the number of its run *)
Definition events_of (items : list eitem) : list (Z * (Z * Q)) := flat_map (fun it => map (fun e => (ei_run it, e)) (ei_events it)) items.
Definition has_events (items : list eitem) (t : euf) : Prop := eu_runs t = map fst (events_of items) /\ eu_events t = map snd (events_of items).
Definition begins {A} (l m : list A) : Prop := exists rest, m = l ++ rest.
(** the file of a complete run of zemrude with the tables [o] *)
Definition has_tables (o : zout) (t : zemf) : Prop :=
  zt_meta t = Some (zo_meta o) /\ zt_eff t = Some [zo_eff o] /\ zt_map t = Some (zo_map o) /\ zt_evol t = Some (zo_evol o) /\ zt_other t = [].
(** a file with no table at all *)
Definition no_tables (t : zemf) : Prop := zt_meta t = None /\ zt_eff t = None /\ zt_map t = None /\ zt_evol t = None /\ zt_other t = [].
(** a table that is not there, or is there without rows, or is complete *)
Definition some_of {A} (rows : list A) (found : option (list A)) : Prop := found = None \/ found = Some [] \/ found = Some rows.
(** a file with some of the tables [o] and nothing else: they come in the order metadata, efficiencies, map, evolution *)
Definition part_of (o : zout) (t : zemf) : Prop :=
  zt_other t = [] /\ (zt_meta t = None \/ zt_meta t = Some (zo_meta o)) /\ some_of [zo_eff o] (zt_eff t) /\ some_of (zo_map o) (zt_map t) /\ some_of (zo_evol o) (zt_evol t) /\
  (zt_eff t <> None -> zt_meta t = Some (zo_meta o)) /\ (zt_map t <> None -> zt_eff t = Some [zo_eff o]) /\ (zt_evol t <> None -> zt_map t = Some (zo_map o)).
(** the compression that a name stands for: its level and library; without compression there is none *)
Inductive compression_of : string -> nat -> string -> Prop :=
| no_compression : compression_of "NOCOMPR" 0 ""
| with_zlib d n : In (d, n) [("1", 1); ("4", 4); ("5", 5); ("9", 9)]%string -> compression_of ("ZLIB" ++ d) n "zlib"
| with_blosc : compression_of "BLOSC5" 5 "blosc"
| with_lz4hc : compression_of "BLZ4HC5" 5 "blosc:lz4hc".
