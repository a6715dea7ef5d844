(** What a user expects to find in the output of a chain of cities *)
From Verif Require Import Base ProvModel.
Local Open Scope string_scope.
Local Open Scope list_scope.

(** the values of nested dictionaries, each with the dotted path that leads to it *)
Fixpoint leaves (path : string) (c : conf) : list (string * string) :=
  match c with
  | Leaf v => [(path, v)]
  | Dict items => (fix go (items : list (string * conf)) := match items with [] => [] | (k, v) :: items => leaves (if String.eqb path "" then k else path ++ "." ++ k)%string v ++ go items end) items
  end.
Definition values (args : list (string * conf)) : list (string * string) := leaves "" (Dict args).
(** the last value given for a path *)
Definition last_value (k : string) (l : list (string * string)) : option string := lookup k (rev l).

(** the run of a city: its name, its arguments, the tables it writes and the other input files *)
Record run := { r_city : string; r_args : list (string * conf); r_tables : list tab; r_others : list file }.
(** each city reads the output of the one before it, possibly with other files, and writes a new file *)
Fixpoint chain (f : file) (rs : list run) : result file :=
  match rs with
  | [] => Ok f
  | r :: rs => match finish (f :: r_others r) {| f_config := None; f_tables := r_tables r |} (r_city r) (Dict (r_args r)) with
               | (f', Ok _) => chain f' rs
               | (_, Err e) => Err e
               end
  end.
Definition config_of (f : file) (city : string) : option dict := match f_config f with Some l => lookup city l | None => None end.
(** a new table with columns to index: known ones, each once *)
Definition indexable (t : tab) : Prop := tab_indexed t = [] /\ match tab_attr t with None => True | Some l => NoDup l /\ forall c, In c l -> In c (tab_cols t) end.
(** the table with the indices it asks for *)
Definition with_index (t : tab) : tab := {| tab_name := tab_name t; tab_cols := tab_cols t; tab_attr := tab_attr t; tab_indexed := match tab_attr t with Some l => l | None => [] end |}.
