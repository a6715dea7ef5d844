(** What a city adds to its output file when it has finished: its configuration, those of the cities before it and the
    indices of the tables. /repo/invisible_cities/cities/components.py 103-156 and 207-270. *)
From Verif Require Import Base.
From Coq Require Export String.
Local Open Scope string_scope.
Notation llength := List.length.

(** with invisible_cities/cities/components.py 103-156 and 207-270 *)
Definition NodeError : pyexc := Other 61.

(** the arguments of a city: str(v) for the values, and nested dictionaries, with their items in order *)
Inductive conf := Leaf (v : string) | Dict (items : list (string * conf)).
(** with invisible_cities/cities/components.py 103-156 and 207-270 *)
Definition dict := list (string * string).
(** d[k] = v: a new key is added at the end *)
Fixpoint set_key (k v : string) (d : dict) : dict :=
  match d with [] => [(k, v)] | (k', v') :: d => if String.eqb k' k then (k, v) :: d else (k', v') :: set_key k v d end.
(** dict.update *)
Definition update (d e : dict) : dict := fold_left (fun d kv => set_key (fst kv) (snd kv) d) e d.

(** 239: f"{parent_key}.{k}" if parent_key else k *)
Definition new_key (parent_key k : string) : string := if String.eqb parent_key "" then k else parent_key ++ "." ++ k.
(** 220-244: dict_to_string *)
Fixpoint dict_to_string (arg : conf) (parent_key : string) : dict :=
  match arg with
  | Leaf _ => []
  | Dict items => (fix go (items : list (string * conf)) (flat_dict : dict) : dict :=
                     match items with
                     | [] => flat_dict
                     | (k, v) :: items => let nk := new_key parent_key k in
                       go items (match v with Dict _ => update flat_dict (dict_to_string v nk) | Leaf s => set_key nk s flat_dict end)
                     end) items []
  end.

(** a table: its columns, the attribute columns_to_index and the columns with an index. The contents are not needed. *)
Record tab := { tab_name : string; tab_cols : list string; tab_attr : option (list string); tab_indexed : list string }.
(** a file: the tables of the group "config", if there is one, and the others *)
Record file := { f_config : option (list (string * dict)); f_tables : list tab }.
(** with invisible_cities/cities/components.py 103-156 and 207-270 *)
Definition lookup {A} (k : string) (l : list (string * A)) : option A := option_map snd (find (fun kv => String.eqb (fst kv) k) l).

(** dst_io.py 58: a column of strings of 300 characters; longer ones are cut, with a warning (71-73). Other characters than ascii are not modelled. *)
Definition cut (s : string) : string := substring 0 300 s.
(** for components.py 247-257: write_city_configuration *)
Definition cut_row (kv : string * string) : string * string := (cut (fst kv), cut (snd kv)).
(** 247-257 with dst_io.df_writer: a table of that name gets more rows *)
Fixpoint append_rows (name : string) (rows : dict) (l : list (string * dict)) : list (string * dict) :=
  match l with
  | [] => [(name, rows)]
  | (n, old) :: l => if String.eqb n name then (n, (old ++ rows)%list) :: l else (n, old) :: append_rows name rows l
  end.
(** components.py 247-257: write_city_configuration *)
Definition write_city_configuration (f : file) (city_name : string) (args : conf) : file :=
  {| f_config := Some (append_rows city_name (map cut_row (dict_to_string args "")) (match f_config f with Some l => l | None => [] end)); f_tables := f_tables f |}.

(** 269-270: copy_node refuses a name that is already there *)
Fixpoint copy_nodes (l there : list (string * dict)) : list (string * dict) * result unit :=
  match l with
  | [] => (there, Ok tt)
  | (n, rows) :: l => match lookup n there with Some _ => (there, Err NodeError) | None => copy_nodes l (there ++ [(n, rows)])%list end
  end.
(** 260-270 *)
Definition copy_cities_configuration (fin fout : file) : file * result unit :=
  match f_config fin with
  | None => (fout, Ok tt)
  | Some l => let (c, r) := copy_nodes l (match f_config fout with Some l => l | None => [] end) in ({| f_config := Some c; f_tables := f_tables fout |}, r)
  end.

(** table.colinstances[colname].create_index(): KeyError for an unknown column, ValueError for one with an index *)
Fixpoint index_columns (cols todo indexed : list string) : list string * result unit :=
  match todo with
  | [] => (indexed, Ok tt)
  | c :: todo => if existsb (String.eqb c) cols then if existsb (String.eqb c) indexed then (indexed, Err ValueError) else index_columns cols todo (indexed ++ [c])%list
                 else (indexed, Err KeyError)
  end.
(** with dst_io.py 58 *)
Fixpoint index_all (l : list tab) : list tab * result unit :=
  match l with
  | [] => ([], Ok tt)
  | t :: l => let (i, r) := match tab_attr t with None => (tab_indexed t, Ok tt) | Some todo => index_columns (tab_cols t) todo (tab_indexed t) end in
              let t' := {| tab_name := tab_name t; tab_cols := tab_cols t; tab_attr := tab_attr t; tab_indexed := i |} in
              match r with Err e => (t' :: l, Err e) | Ok _ => let (l, r) := index_all l in (t' :: l, r) end
  end.
(** 207-217: index_tables *)
Definition index_tables (f : file) : file * result unit := let (l, r) := index_all (f_tables f) in ({| f_config := f_config f; f_tables := l |}, r).

(** 151-154: what the decorator does with the output of the city *)
Definition finish (files_in : list file) (fout : file) (city_name : string) (args : conf) : file * result unit :=
  let fout := write_city_configuration fout city_name args in
  match files_in with
  | [] => (fout, Err IndexError)
  | fin :: _ => match copy_cities_configuration fin fout with
                | (fout, Err e) => (fout, Err e)
                | (fout, Ok _) => index_tables fout
                end
  end.
