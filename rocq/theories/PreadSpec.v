(** Vocabulary for C105 *)
From Verif Require Import Base PeaksModel PmapioModel PmapioSpec PreadModel.
Local Open Scope nat_scope.

(** an event as it was written: its number, its timestamp and its PMap *)
Record written_event := { we_number : Z; we_time : Q; we_pmap : pmap }.

(** a file with the PMaps of some events, all different, in the order of the table of events *)
Definition holds (f32 : Q -> Q) (f : pfile) (run : Z) (l : list written_event) : Prop :=
  (exists t, store_pmaps f32 empty_tables (map (fun e => (we_number e, we_pmap e)) l) = Ok t /\ pf_tables f = Some t) /\
  (exists more, pf_runs f = Some (run :: more)) /\
  pf_events f = Some (map (fun e => (we_number e, we_time e)) l) /\
  NoDup (map we_number l) /\ (forall e, In e l -> pmap_ok (we_pmap e) /\ has_peaks (we_pmap e)).
(** a file without a table of runs or of events, or where one of them is empty *)
Definition without_events (f : pfile) : Prop :=
  pf_runs f = None \/ pf_runs f = Some [] \/ pf_events f = None \/ pf_events f = Some [].

(** what is given for an event: the numbers of the PMap are those of a Float32 column *)
Definition item_of (f32 : Q -> Q) (run : Z) (e : written_event) (it : pitem) : Prop :=
  pi_event it = we_number e /\ pi_time it = we_time e /\ pi_run it = run /\ pi_pmap it = round_pmap f32 (we_pmap e).
Definition read_of (f32 : Q -> Q) (f : pfile) (part : list pitem) : Prop :=
  (without_events f /\ part = []) \/ exists run l, holds f32 f run l /\ Forall2 (item_of f32 run) l part.
