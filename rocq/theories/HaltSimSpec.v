(** What C121 says of the tables of buffy and detsim *)
From Verif Require Import Base BfyModel HaltSimModel HaltSpec.
Local Open Scope nat_scope.

(** What an event [ev], of which [max] are the numbers it may take, has added when the run fails or is stopped: rows of its own in the tables of the filters; the rows of
    its first triggers, complete, in Run and RD; and of the next trigger, perhaps, the row of Run/events, and then that of Run/eventMap, and then the waveforms of its PMTs *)
Definition sim_more (max ev : Z) (before after : sim_tables) : Prop :=
  grown fst ev (st_first before) (st_first after) /\ grown fst ev (st_dark before) (st_dark after) /\ grown fst ev (st_signal before) (st_signal after) /\
  exists rows next_event next_map next_pmt,
    st_events after = st_events before ++ map (fun r => (br_event r, br_time r)) rows ++ next_event /\
    st_map after = st_map before ++ map (fun r => (br_event r, br_nexus r)) rows ++ next_map /\
    st_pmt after = st_pmt before ++ map br_pmt rows ++ next_pmt /\
    st_sipm after = st_sipm before ++ map br_sipm rows /\
    (forall r, In r rows -> br_nexus r = ev) /\ (forall x, In x next_map -> snd x = ev) /\
    (exists k, map br_event rows ++ map fst next_event = map (fun i => (ev * max + Z.of_nat i)%Z) (seq 0 k)) /\
    length next_pmt <= length next_map /\ length next_map <= length next_event /\ length next_event <= 1.
(** a run of buffy that creates its file *)
Definition made {O} (r : result (option O)) : result O := match r with Ok (Some o) => Ok o | Ok None => Err NotModelled | Err e => Err e end.
