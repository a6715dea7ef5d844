(** Model of the tables of calibration parameters: io/channel_param_io.py (13-165). A file is the list of the tables under FITPARAMS. Values are rounded to
    32 bits when stored: [f32], any function. Columns called SensorID and sensor numbers of more than 32 bits are not modelled. *)
From Verif Require Import Base Arrays.
From Coq Require Export String NArith.
Local Open Scope Q_scope.
Local Open Scope string_scope.
Notation llength := List.length.

(** the shape of a column: a value and its error, or a matrix *)
Inductive shape := pair_of | matrix (rows columns : nat).
(** for channel_param_io.py 57-84: channel_param_writer *)
Inductive arr := Vec (l : list Q) | Mat (m : list (list Q)).
(** an element of an array *)
Inductive item := Num (q : Q) | Row (l : list Q).
Record table := { t_cols : list (string * shape); t_rows : list (N * list arr); t_row : N * list arr (** the private record of the row to be written *) }.
(** for channel_param_io.py 57-84: channel_param_writer *)
Definition file := list (string * table).
(** exit() *)
Definition Exit : pyexc := Other 60.
(** the table exists: NodeError *)
Definition NodeError : pyexc := Other 61.

(** for channel_param_io.py 57-84: channel_param_writer *)
Definition default (s : shape) : arr := match s with pair_of => Vec [0; 0] | matrix r c => Mat (repeat (repeat 0 c) r) end.
(** for channel_param_io.py 57-84: channel_param_writer *)
Definition defaults (cols : list (string * shape)) : list arr := map (fun c => default (snd c)) cols.
(** with io/channel_param_io.py 13-165 *)
Fixpoint index_of (k : string) (l : list string) : option nat := match l with [] => None | x :: l => if String.eqb x k then Some 0%nat else option_map S (index_of k l) end.
(** for channel_param_io.py 57-84: channel_param_writer *)
Fixpoint find_table (n : string) (f : file) : option table := match f with [] => None | (m, t) :: f => if String.eqb m n then Some t else find_table n f end.
(** for channel_param_io.py 75-82: store_channel_fit *)
Definition put_table (n : string) (t : table) (f : file) : file := map (fun mt => if String.eqb (fst mt) n then (fst mt, t) else mt) f.

(** 38-54: make_table_dictionary *)
Definition make_table_dictionary (param_names : list string) (covariance : option (nat * nat)) : list (string * shape) :=
  (map (fun p => (p, pair_of)) param_names ++ match covariance with None => [] | Some (r, c) => [("covariance", matrix r c)] end)%list.
(** 13-25, 57-84: channel_param_writer *)
Definition table_name (sensor_type func_name : string) : string := "FIT_" ++ sensor_type ++ "_" ++ func_name.
(** channel_param_io.py 57-84: channel_param_writer *)
Definition channel_param_writer (f : file) (sensor_type func_name : string) (param_names : list string) (covariance : option (nat * nat)) : result file :=
  let n := table_name sensor_type func_name in
  match find_table n f with
  | Some _ => Err NodeError
  | None => let cols := make_table_dictionary param_names covariance in Ok (f ++ [(n, {| t_cols := cols; t_rows := []; t_row := (0%N, defaults cols) |})])%list
  end.

Section Float32.
  Variable f32 : Q -> Q.
  (** with io/channel_param_io.py 13-165 *)
  Definition stored (v : arr) : arr := match v with Vec l => Vec (map f32 l) | Mat m => Mat (map (map f32) m) end.
  (** with io/channel_param_io.py 13-165 *)
  Definition fits (s : shape) (v : arr) : bool :=
    match s, v with
    | pair_of, Vec l => (llength l =? 2)%nat
    | matrix r c, Mat m => (llength m =? r)%nat && forallb (fun l => (llength l =? c)%nat) m
    | _, _ => false
    end.
  (** channel[key] = param *)
  Definition set_item (cols : list (string * shape)) (key : string) (v : arr) (row : list arr) : result (list arr) :=
    match index_of key (map fst cols) with
    | None => Err KeyError
    | Some i => match nth_error cols i with
                | Some c => if fits (snd c) v then Ok (upd i (stored v) row) else Err ValueError
                | None => Err KeyError
                end
    end.
  (** the loop of 32-33: the record keeps what was set before an exception *)
  Fixpoint set_items (cols : list (string * shape)) (fit_result : list (string * arr)) (row : list arr) : list arr * result unit :=
    match fit_result with
    | [] => (row, Ok tt)
    | (k, v) :: rest => match set_item cols k v row with Ok row => set_items cols rest row | Err e => (row, Err e) end
    end.
  (** 28-35: store_fit_values. PyTables keeps one record per table, which append() resets to its default values. *)
  Definition store_fit_values (t : table) (sensor_id : N) (fit_result : list (string * arr)) : table * result unit :=
    match set_items (t_cols t) fit_result (snd (t_row t)) with
    | (row, Ok _) => ({| t_cols := t_cols t; t_rows := (t_rows t ++ [(sensor_id, row)])%list; t_row := (0%N, defaults (t_cols t)) |}, Ok tt)
    | (row, Err e) => ({| t_cols := t_cols t; t_rows := t_rows t; t_row := (sensor_id, row) |}, Err e)
    end.
  (** channel_param_io.py 75-82: store_channel_fit *)
  Definition store_channel_fit (f : file) (name : string) (sensor_id : N) (fit_result : list (string * arr)) : file * result unit :=
    match find_table name f with
    | None => (f, Err KeyError)
    | Some t => let (t, r) := store_fit_values t sensor_id fit_result in (put_table name t f, r)
    end.
End Float32.

(** table_row[pname][i] *)
Definition element (v : arr) (i : nat) : result item :=
  match v with
  | Vec l => match nth_error l i with Some q => Ok (Num q) | None => Err IndexError end
  | Mat m => match nth_error m i with Some l => Ok (Row l) | None => Err IndexError end
  end.
(** 158-165: parameters_and_errors; the dictionaries as lists of pairs, for different names *)
Definition parameters_and_errors (cols : list (string * shape)) (row : list arr) (parameters : list string) : result (list (string * item) * list (string * item)) :=
  rbind (rmap (fun p => match index_of p (map fst cols) with
                        | None => Err KeyError
                        | Some i => match nth_error row i with
                                    | None => Err KeyError
                                    | Some v => rbind (element v 0) (fun x => rbind (element v 1) (fun e => Ok ((p, x), (p, e))))
                                    end
                        end) parameters) (fun l => Ok (map fst l, map snd l)).
(** with io/channel_param_io.py 13-165 *)
Definition reading := (N * (list (string * item) * list (string * item)))%type.
(** 134-140: all_channel_value_reader *)
Definition all_channel_value_reader (t : table) (param_names : list string) : result (list reading) :=
  rmap (fun r => rbind (parameters_and_errors (t_cols t) (snd r) param_names) (fun pe => Ok (fst r, pe))) (t_rows t).
(** 103-118: generator_param_reader. All the columns but the first one, the sensor number *)
Definition generator_param_reader (f : file) (name : string) : result (list reading) :=
  match find_table name f with None => Err Exit | Some t => all_channel_value_reader t (map fst (t_cols t)) end.
(** 121-131: subset_param_reader *)
Definition subset_param_reader (f : file) (name : string) (param_names : list string) : result (list reading) :=
  match find_table name f with None => Err Exit | Some t => all_channel_value_reader t param_names end.
(** 143-155: single_channel_value_reader *)
Definition single_channel_value_reader (channel : N) (t : table) (param_names : list string) : result (list (string * item) * list (string * item)) :=
  match filter (fun r => N.eqb (fst r) channel) (t_rows t) with
  | [r] => parameters_and_errors (t_cols t) (snd r) param_names
  | _ => Err Exit
  end.
