(** Vocabulary for C71 and C72 *)
From Coq Require Import String.
From Verif Require Import Base ConfigModel McModel McSpec ReadModel.
Local Open Scope Q_scope.

(** [out] has the elements of [l] for which [P] holds, in the same order *)
Inductive kept {A} (P : A -> Prop) : list A -> list A -> Prop :=
| kp_nil : kept P [] []
| kp_yes a l out : P a -> kept P l out -> kept P (a :: l) (a :: out)
| kp_no a l out : ~ P a -> kept P l out -> kept P (a :: l) out.

Section Spec.
  Context {H K : Type}.
  Variable h_event : H -> Z.
  Variable k_event : K -> Z.

  (** a file that has everything, and one that lacks some table or whose table of runs is empty *)
  Definition complete (f : hfile H K) (hits : list H) (kdst : list K) (run : Z) (events : list (Z * Q)) : Prop :=
    f_hits f = Some hits /\ f_kdst f = Some kdst /\ f_events f = Some events /\ exists more, f_runs f = Some (run :: more).
  Definition lacks_something (f : hfile H K) : Prop :=
    f_hits f = None \/ f_kdst f = None \/ f_events f = None \/ f_runs f = None \/ f_runs f = Some [].

  (** the item of an event *)
  Definition item_of (hits : list H) (kdst : list K) (run : Z) (e : Z * Q) (it : hitem H K) : Prop :=
    i_event it = fst e /\ i_time it = snd e /\ i_run it = run /\
    kept (fun h => h_event h = fst e) hits (i_hits it) /\ kept (fun k => k_event k = fst e) kdst (i_kdst it).

  (** what a file gives: one item for each event of its table *)
  Definition read_of_file (f : hfile H K) (part : list (hitem H K)) : Prop :=
    (lacks_something f /\ part = []) \/
    (exists hits kdst run events, complete f hits kdst run events /\ Forall2 (item_of hits kdst run) events part).

  (** the table of pointlike events has as many events as the table of events *)
  Definition same_number (kdst : list K) (events : list (Z * Q)) : Prop :=
    forall evs, NoDup evs -> (forall e, In e evs <-> In e (map k_event kdst)) -> List.length evs = List.length events.
  Definition well_formed (f : hfile H K) : Prop :=
    lacks_something f \/ exists hits kdst run events, complete f hits kdst run events /\ same_number kdst events.
End Spec.

Section Deco.
  Context {K : Type}.
  Variable k_event : K -> Z.
  (** the item of an event with deconvolved hits; the charge of the hits is their energy *)
  Definition deco_item (hits : list dhit) (kdst : option (list K)) (run : Z) (events : list (Z * Q)) (ev : Z) (it : ditem (K := K)) : Prop :=
    x_event it = ev /\ x_run it = run /\ In (ev, x_time it) events /\
    (exists own, kept (fun h => d_event h = ev) hits own /\
       Forall2 (fun h h' => d_event h' = d_event h /\ d_npeak h' = d_npeak h /\ d_pos h' = d_pos h /\ d_E h' = d_E h /\ d_Q h' = d_E h /\ d_more h' = d_more h) own (x_hits it)) /\
    match kdst, x_kdst it with
    | Some l, Some m => kept (fun k => k_event k = ev) l m
    | None, None => True
    | _, _ => False
    end.
End Deco.

(** a time in the period number |ev| of a source of the given rate *)
Definition in_period (rate : Q) (ev : Z) (t : Q) : Prop := inject_Z (Z.abs ev) <= t * rate /\ t * rate < inject_Z (Z.abs ev) + 1.

(** a row with the time at which its bin begins *)
Definition timed (bins : list (string * Q)) (pos : list (Z * string)) (r : sresp) (s : stime) : Prop :=
  s_event s = r_event r /\ s_sensor s = r_sensor r /\ s_charge s = r_charge r /\
  exists name w, In (r_sensor r, name) pos /\ In (name, w) bins /\ s_name s = name /\ s_time s = Some (w * inject_Z (r_bin r)).
