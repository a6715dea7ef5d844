(** What C117 says *)
From Coq Require Import String.
From Verif Require ReadModel KrModel.
From Verif Require Import Base ConfigModel PmapioModel PreadModel BfyModel.

(** [l] is [m] without some of its values, in the same order *)
Inductive subsequence {A} : list A -> list A -> Prop :=
| sub_end : subsequence [] []
| sub_take a l m : subsequence l m -> subsequence (a :: l) (a :: m)
| sub_skip a l m : subsequence l m -> subsequence l (a :: m).
(** the numbers and times of the events that the files list *)
Definition listed {A} (table : option (list A)) : list A := match table with Some l => l | None => [] end.
Definition wf_listed {E W S T C} (open_file : string -> h5file E W S T C) (paths : list string) : list E := flat_map (fun p => listed (h_events (open_file p))) paths.
Definition pm_listed (files : list pfile) : list (Z * Q) := flat_map (fun f => listed (pf_events f)) files.
Definition hits_listed {H K} (files : list (ReadModel.hfile H K)) : list (Z * Q) := flat_map (fun f => listed (ReadModel.f_events f)) files.
(** the number and the time of a row of Run *)
Definition event_time (i : Z * Z * Q) : Z * Q := (snd (fst i), snd i).
(** every row of the tables of PMaps is of an event of the list *)
Definition pmap_rows_of (numbers : list Z) (t : pm_tables) : Prop :=
  incl (map s_event (t_s1 t)) numbers /\ incl (map s_event (t_s2 t)) numbers /\ incl (map r_event (t_si t)) numbers /\ incl (map r_event (t_s1pmt t)) numbers /\ incl (map r_event (t_s2pmt t)) numbers.
(** a row of the pointlike events has the number and the time, in microseconds, of an event of Run *)
Definition kr_key (r : KrModel.krrow) : Z * Q := (KrModel.w_event r, KrModel.w_time r).
Definition kr_of (i : Z * Z * Q) : Z * Q := (snd (fst i), snd i * (1 # 1000))%Q.
(** a trigger of a simulated event has the number of that event times [n], the number of buffers per event, plus its position *)
Definition trigger_of (n : Z) (numbers : list Z) (r : brow) : Prop := In (br_nexus r) numbers /\ exists i, (0 <= i)%Z /\ br_event r = (br_nexus r * n + i)%Z.
