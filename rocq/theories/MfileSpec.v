(** What C129 says *)
From Verif Require Import Base PeaksModel CorrModel CorrSpec MfileModel.
Local Open Scope Q_scope.

(** the exception of a table, if any *)
Definition failure {A} (r : result A) : option pyexc := match r with Ok _ => None | Err e => Some e end.
(** the exceptions of the tables that are needed, in the order in which they are read *)
Definition failures (f : map_file) : list (option pyexc) := [failure (mf_chi2 f); failure (mf_e0 f); failure (mf_e0u f); failure (mf_lt f); failure (mf_ltu f); failure (mf_info f)].
(** [e] is the first one *)
Definition first_failure (l : list (option pyexc)) (e : pyexc) : Prop := exists a b, l = a ++ Some e :: b /\ Forall (fun x => x = None) a.
(** the maps are those of the file, and the time evolution is there only for data with a table that can be read *)
Definition maps_of (f : map_file) (m : maps) : Prop :=
  mf_chi2 f = Ok (am_chi2 m) /\ mf_e0 f = Ok (am_e0 m) /\ mf_e0u f = Ok (am_e0u m) /\ mf_lt f = Ok (am_lt m) /\ mf_ltu f = Ok (am_ltu m) /\ mf_info f = Ok (am_run m, am_info m) /\
  (forall t, am_evol m = Some t <-> (0 < am_run m)%Z /\ mf_evol f = Ok t).
(** the file has a time evolution that is used *)
Definition with_evolution (f : map_file) : Prop := exists run info t, mf_info f = Ok (run, info) /\ (0 < run)%Z /\ mf_evol f = Ok t.
