(** What a run that fails, or is interrupted, has written: the programs of the cities as sequences of writes to the tables of the output file, that may raise an
    exception, which leaves the tables as they are at that point. When an exception goes through the city the file is closed by the statement "with tb.open_file(...)"
    of every city (invisible_cities/cities/*.py), that writes what has been appended, and the exception reaches the caller. *)
From Verif Require Import Base.
Local Open Scope nat_scope.

(** a program that changes the tables, of type [T], and gives a value or an exception *)
Inductive prog (T A : Type) : Type :=
| Ret (a : A)
| Raise (e : pyexc)
| Put (f : T -> T) (k : prog T A)
| Look (k : T -> prog T A).
Arguments Ret {T A}. Arguments Raise {T A}. Arguments Put {T A}. Arguments Look {T A}.
Definition ret {T A} (a : A) : prog T A := Ret a.
(** a call that changes no table *)
Definition call {T A} (r : result A) : prog T A := match r with Ok a => Ret a | Err e => Raise e end.
(** a call to a writer that does not fail *)
Definition put {T} (f : T -> T) : prog T unit := Put f (Ret tt).
(** the value of a counter *)
Definition look {T A} (f : T -> A) : prog T A := Look (fun t => Ret (f t)).
Definition raise {T A} (e : pyexc) : prog T A := Raise e.
Fixpoint bind {T A B} (p : prog T A) (q : A -> prog T B) : prog T B :=
  match p with Ret a => q a | Raise e => Raise e | Put f k => Put f (bind k q) | Look k => Look (fun t => bind (k t) q) end.
Notation "a <- p ;; q" := (bind p (fun a => q)) (at level 61, p at next level, right associativity).
Notation "p ;;; q" := (bind p (fun _ => q)) (at level 61, right associativity).
(** dataflow/dataflow.py 291-297: the loop that sends the events; also a loop within a writer *)
Fixpoint each {T A} (l : list A) (p : A -> prog T unit) : prog T unit :=
  match l with [] => ret tt | a :: l => p a ;;; each l p end.
(** a program for some of the tables *)
Fixpoint within {T U A} (get : U -> T) (set : T -> U -> U) (p : prog T A) : prog U A :=
  match p with Ret a => Ret a | Raise e => Raise e | Put f k => Put (fun u => set (f (get u)) u) (within get set k) | Look k => Look (fun u => within get set (k (get u))) end.

(** the tables at the end of a program, and its value or exception *)
Fixpoint exec {T A} (p : prog T A) (t : T) : T * result A :=
  match p with Ret a => (t, Ok a) | Raise e => (t, Err e) | Put f k => exec k (f t) | Look k => exec (k t) t end.
Coercion exec : prog >-> Funclass.
(** the tables at each of the points where it may be interrupted: before its first write, and after each *)
Fixpoint visited {T A} (p : prog T A) (t : T) : list T :=
  match p with Ret _ | Raise _ => [t] | Put f k => t :: visited k (f t) | Look k => visited (k t) t end.

(** the tables and the exception that a city leaves, given the events of its source and the exception that ends the source, if any *)
Definition leave {T I} (step : I -> prog T unit) (source : list I * option pyexc) (t : T) : T * option pyexc :=
  match each (fst source) step t with (t, Ok _) => (t, snd source) | (t, Err e) => (t, Some e) end.
(** the tables that a city may leave when it is stopped from outside, by the user or for lack of memory or of time *)
Definition stopped {T I} (step : I -> prog T unit) (source : list I * option pyexc) (t : T) : list T := visited (each (fst source) step) t.
