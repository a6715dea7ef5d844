(** What a user stores and reads *)
From Verif Require Import Base ChanModel.
Local Open Scope Q_scope.

(** one fit: the table, the sensor and the value and error of the parameters given *)
Record fit := { f_table : string; f_sensor : N; f_values : list (string * (Q * Q)) }.
Definition given (k : string) (l : list (string * (Q * Q))) : option (Q * Q) := option_map snd (find (fun kv => String.eqb (fst kv) k) l).
(** what is read for a parameter: the rounded value and error, zeros if it was not given *)
Definition value_read (f32 : Q -> Q) (x : fit) (k : string) : Q := match given k (f_values x) with Some v => f32 (fst v) | None => 0 end.
Definition error_read (f32 : Q -> Q) (x : fit) (k : string) : Q := match given k (f_values x) with Some v => f32 (snd v) | None => 0 end.
Definition read_back (f32 : Q -> Q) (params : list string) (x : fit) : N * (list (string * item) * list (string * item)) :=
  (f_sensor x, (map (fun k => (k, Num (value_read f32 x k))) params, map (fun k => (k, Num (error_read f32 x k))) params)).
(** what a user does with a file: new tables and fits, in any order *)
Inductive op := Create (sensor_type func_name : string) (params : list string) | Store (x : fit).
Definition step (f32 : Q -> Q) (f : file) (o : op) : result file :=
  match o with
  | Create st fn ps => channel_param_writer f st fn ps None
  | Store x => match store_channel_fit f32 f (f_table x) (f_sensor x) (map (fun kv => (fst kv, Vec [fst (snd kv); snd (snd kv)])) (f_values x)) with (f, Ok _) => Ok f | (_, Err e) => Err e end
  end.
Fixpoint run (f32 : Q -> Q) (f : file) (ops : list op) : result file := match ops with [] => Ok f | o :: ops => rbind (step f32 f o) (fun f => run f32 f ops) end.
(** the fits stored in a table, in order *)
Definition fits_of (ops : list op) (name : string) : list fit := flat_map (fun o => match o with Store x => if String.eqb (f_table x) name then [x] else [] | _ => [] end) ops.
(** Python's dictionaries and column names do not repeat a name *)
Definition proper (o : op) : Prop := match o with Create _ _ ps => NoDup ps | Store x => NoDup (map fst (f_values x)) end.
(** the parameters a table was created with *)
Fixpoint params_of (ops : list op) (name : string) : option (list string) :=
  match ops with [] => None | Create st fn ps :: ops => if String.eqb (table_name st fn) name then Some ps else params_of ops name | _ :: ops => params_of ops name end.
(** a table may be created once; a fit may be stored in a table that exists, for parameters of that table *)
Definition possible (ops : list op) (o : op) : Prop :=
  match o with Create st fn _ => params_of ops (table_name st fn) = None | Store x => exists ps, params_of ops (f_table x) = Some ps /\ forall k, In k (map fst (f_values x)) -> In k ps end.
(** every step is possible where it is *)
Definition in_order (ops : list op) : Prop := forall before o after, (ops = before ++ o :: after)%list -> possible before o.
