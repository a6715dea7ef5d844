(** Which rows should be copied *)
From Verif Require Import Base McopyModel.
Local Open Scope Z_scope.

Section Rows.
  Context {R : Type}.
  (** an output file without anything *)
  Definition new_file : file R := {| f_mc := None; f_map := None |}.
  Definition rows_of (f : file R) (k : key) : list (Z * R) := match f_mc f with Some m => match m_data m k with Some l => l | None => [] end | None => [] end.
  Definition map_of (f : file R) : list (Z * Z) := match f_mc f, f_map f with Some _, Some l => l | _, _ => [] end.
  Definition whole_of (f : file R) (k : wkey) : list R := match f_mc f with Some m => match m_whole m k with Some l => l | None => [] end | None => [] end.
  (** the events a file without numbers of its own knows *)
  Definition known_events (f : file R) : list Z := match rows_of f Particles with [] => map fst (rows_of f Response) | l => map fst l end.
  (** the number [n] is that of the simulated event [e] in this file *)
  Definition numbered (f : file R) (n e : Z) : Prop :=
    f_mc f <> None /\ match f_map f with Some l => In (n, e) l | None => n = e /\ In e (known_events f) end.
  (** exactly the rows of the simulated events whose number is in [events], in their order *)
  Definition chosen (events : list Z) (f : file R) (l kept : list (Z * R)) : Prop :=
    exists b, (forall e, b e = true <-> exists n, In n events /\ numbered f n e) /\ kept = filter (fun r => b (fst r)) l.
  (** a file whose events can be read *)
  Definition readable (f : file R) : Prop :=
    match f_mc f with Some m => f_map f <> None \/ (m_data m Particles <> None /\ m_data m Response <> None) | None => True end.
  (** a file with simulation and one of the events; in its table event_mapping, if it has one *)
  Definition has_event (events : list Z) (f : file R) : Prop :=
    match f_mc f with Some m => exists n e, In n events /\ numbered f n e /\ match m_mapping m with Some l => In e l | None => True end | None => False end.
  (** all the files before the first one with simulation have none *)
  Definition starts_with_event (events : list Z) (files : list (file R)) : Prop :=
    forall before f after, files = before ++ f :: after -> f_mc f <> None -> (forall g, In g before -> f_mc g = None) -> has_event events f.
End Rows.
