(** What C91 and C92 say *)
From Coq Require Import String.
From Verif Require Import Base PeaksModel CorrModel.
Local Open Scope Q_scope.

(** ---- C92 ---- *)
(** the argument fixed for a name, if any *)
Definition given (kwargs : list (string * val)) (k : string) (v : Q) : Prop := In (k, Some v) kwargs.
(** the arguments of the original function: fixed ones where they are given, the others in order *)
Inductive supplied (kwargs : list (string * val)) : list string -> list val -> list val -> Prop :=
| sup_nil : supplied kwargs [] [] []
| sup_fixed n names pars args v : given kwargs n v -> supplied kwargs names pars args -> supplied kwargs (n :: names) pars (Some v :: args)
| sup_free n names p pars args : (forall v, ~ given kwargs n v) -> supplied kwargs names pars args -> supplied kwargs (n :: names) (p :: pars) (p :: args).
(** the parameters that stay free *)
Inductive free_names (kwargs : list (string * val)) : list string -> list string -> Prop :=
| fr_nil : free_names kwargs [] []
| fr_fixed n names fs v : given kwargs n v -> free_names kwargs names fs -> free_names kwargs (n :: names) fs
| fr_free n names fs : (forall v, ~ given kwargs n v) -> free_names kwargs names fs -> free_names kwargs (n :: names) (n :: fs).
(** every name fixed is a parameter of the function and has a number as its value, at least one is fixed and one is free *)
Definition can_fix (names : list string) (kwargs : list (string * val)) : Prop :=
  (forall k v, In (k, v) kwargs -> In k names /\ v <> None) /\ kwargs <> [] /\ (exists n, In n names /\ forall v, ~ given kwargs n v).

(** ---- C91 ---- *)
(** a point: x, y and its error *)
Definition point := (Q * Q * Q)%type.
Definition p_x (p : point) : Q := fst (fst p).
Definition p_y (p : point) : Q := snd (fst p).
Definition p_s (p : point) : Q := snd p.
(** the points in a range that contains its lower end only *)
Definition within_range (r : option (Q * Q)) (p : point) : bool := match r with None => true | Some (lo, hi) => Qle_bool lo (p_x p) && Qltb (p_x p) hi end.
