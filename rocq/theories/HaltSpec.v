(** What C121 says *)
From Verif Require Import Base.
Local Open Scope nat_scope.

(** a table that has grown by rows of the event [n] only *)
Definition grown {A} (key : A -> Z) (n : Z) (before after : list A) : Prop := exists more, after = before ++ more /\ forall r, In r more -> key r = n.
(** What a run that failed has left, [t], given the events of its input and the exception that ends them, if any; [run_of k t1]: the tables of a run over
    the first k events are [t1]. Either the input raised the exception, and [t] are the tables of a run over all the events that it gave; or an event raised it,
    and [t] are the tables of a run over the events before that one, except that some have more rows, as [more] says, of that event. *)
Definition left_by {I T} (source : list I * option pyexc) (run_of : nat -> T -> Prop) (more : I -> T -> T -> Prop) (t : T) (e : pyexc) : Prop :=
  exists k t1, run_of k t1 /\
    ((k = length (fst source) /\ snd source = Some e /\ t = t1) \/
     exists it, nth_error (fst source) k = Some it /\ more it t1 t).
(** the tables of a run over the first k events, given those of the runs with a range of events *)
Definition first_events {O T} (view : O -> T) (empty : O) (range : nat -> result O) (k : nat) (t : T) : Prop :=
  match k with O => t = view empty | S _ => exists o, range k = Ok o /\ t = view o end.
(** What a run that was stopped from outside has left: the tables of a run over all the events of the input; or those of a run over some of the first events,
    with more rows, as [more] says, of the next one; or, as far as [same] says, those of a run over the next event too *)
Definition stopped_by {I T} (source : list I * option pyexc) (run_of : nat -> T -> Prop) (more : I -> T -> T -> Prop) (same : T -> T -> Prop) (t : T) : Prop :=
  exists k t1, run_of k t1 /\
    ((k = length (fst source) /\ t = t1) \/
     exists it, nth_error (fst source) k = Some it /\ (more it t1 t \/ exists t2, run_of (S k) t2 /\ same t2 t)).
