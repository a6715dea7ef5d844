(** Model of the configuration of a city: invisible_cities/core/configure.py and the [city]
    decorator of invisible_cities/cities/components.py *)
From Verif Require Import Base.
From Coq Require Export String.
Local Open Scope string_scope.
Local Open Scope list_scope.

(** Python values that appear in configurations. [VObj] is any other object, with the names of
    its classes (its mro). [VSym] is a member of an enumeration of types/symbols.py. *)
Inductive pyval :=
| VNone | VBool (b : bool) | VNpBool (b : bool) | VInt (z : Z) | VNpInt (z : Z) | VFloat (q : Q) | VNpFloat (q : Q)
| VStr (s : string) | VSym (enum name : string) | VList (l : list pyval) | VTuple (l : list pyval) | VArray (l : list pyval)
| VDict (l : list (pyval * pyval)) | VObj (mro : list string).

(** dictionaries, in insertion order *)
Definition dict (A : Type) := list (string * A).
(** for configure.py 286: __delitem__ *)
Fixpoint lookup {A} (d : dict A) (k : string) : option A :=
  match d with [] => None | (k', a) :: d => if String.eqb k k' then Some a else lookup d k end.
(** for configure.py 279-283: __setitem__ *)
Fixpoint store {A} (d : dict A) (k : string) (a : A) : dict A :=
  match d with [] => [(k, a)] | (k', a') :: d => if String.eqb k k' then (k, a) :: d else (k', a') :: store d k a end.
(** for configure.py 286: __delitem__ *)
Definition remove_key {A} (d : dict A) (k : string) : dict A := filter (fun p => negb (String.eqb k (fst p))) d.
(** for configure.py 286: __delitem__ *)
Definition has_key {A} (d : dict A) (k : string) : bool := match lookup d k with Some _ => true | None => false end.

(** for configure.py 279-283: __setitem__ *)
Definition NameError : pyexc := Other 30.
(** for configure.py 109-115: read_included_file *)
Definition FileNotFoundError : pyexc := Other 31.
(** for components.py 103-150 *)
Definition NoInputFiles : pyexc := Other 32.
(** for components.py 103-150 *)
Definition NoOutputFile : pyexc := Other 33.

(** ** Configuration *)
(** configure.py 260-266: the state of a Configuration; the head of [cstack] is the top of _file_stack *)
Record config := { cdata : dict pyval; cfile : dict string; chist : dict (list (pyval * string)); cstack : list string }.
(** for configure.py 84-88: read_config_file *)
Definition empty_config : config := {| cdata := []; cfile := []; chist := []; cstack := ["<none>"] |}.

(** configure.py 275-277: _current_filename *)
Definition current_file (c : config) : string := hd "" (cstack c).

(** configure.py 279-283: __setitem__ *)
Definition set_item (c : config) (k : string) (v : pyval) : config :=
  let h := match lookup (cdata c) k, lookup (cfile c) k with
           | Some old, Some f => store (chist c) k (match lookup (chist c) k with Some l => l | None => [] end ++ [(old, f)])
           | _, _ => chist c
           end in
  {| cdata := store (cdata c) k v; cfile := store (cfile c) k (current_file c); chist := h; cstack := cstack c |}.

(** configure.py 286: __delitem__; in a file, del of an unknown name is a NameError *)
Definition del_item (c : config) (k : string) : result config :=
  if has_key (cdata c) k
  then Ok {| cdata := remove_key (cdata c) k; cfile := cfile c; chist := chist c; cstack := cstack c |}
  else Err NameError.

(** configure.py 296-300 *)
Definition push_file (c : config) (f : string) : config := {| cdata := cdata c; cfile := cfile c; chist := chist c; cstack := f :: cstack c |}.
(** configure.py 299-300: pop_file *)
Definition pop_file (c : config) : config := {| cdata := cdata c; cfile := cfile c; chist := chist c; cstack := tl (cstack c) |}.

(** A configuration file is a sequence of assignments, inclusions and deletions. An expression
    reads some names, from the configuration or from the builtins (units, symbols), and computes a
    value or fails. Other Python statements are not modelled. *)
Record expr := { reads : list string; compute : list pyval -> result pyval }.
(** for configure.py 109-115: read_included_file *)
Inductive stmt := Assign (k : string) (e : expr) | Include (f : string) | Delete (k : string).

Section Files.
  (** the file system, the builtins and os.path.expandvars *)
  Variables (files : string -> option (list stmt)) (builtins : dict pyval) (expand : string -> string).

  (** for configure.py 109-115: read_included_file *)
  Definition read_name (d : dict pyval) (k : string) : result pyval :=
    match lookup d k with
    | Some v => Ok v
    | None => match lookup builtins k with Some v => Ok v | None => Err NameError end
    end.
  (** for configure.py 109-115: read_included_file *)
  Definition eval (d : dict pyval) (e : expr) : result pyval := rbind (rmap (read_name d) (reads e)) (compute e).

  (** for configure.py 109-115: read_included_file *)
  Fixpoint exec (inc : string -> config -> option (result config)) (ss : list stmt) (c : config) : option (result config) :=
    match ss with
    | [] => Some (Ok c)
    | Assign k e :: ss =>
      match eval (cdata c) e with Err x => Some (Err x) | Ok v => exec inc ss (set_item c k v) end
    | Delete k :: ss =>
      match del_item c k with Err x => Some (Err x) | Ok c => exec inc ss c end
    | Include f :: ss =>
      match inc f c with None => None | Some (Err x) => Some (Err x) | Some (Ok c) => exec inc ss c end
    end.

  (** configure.py 109-115: read_included_file; [fuel] bounds the depth of the inclusions *)
  Fixpoint read_file (fuel : nat) (f : string) (c : config) : option (result config) :=
    match fuel with
    | O => None
    | S fuel =>
      let name := expand f in
      match files name with
      | None => Some (Err FileNotFoundError)
      | Some ss =>
        match exec (read_file fuel) ss (push_file c name) with
        | Some (Ok c) => Some (Ok (pop_file c))
        | r => r
        end
      end
    end.

  (** configure.py 84-88: read_config_file expands the name once more *)
  Definition read_config_file (fuel : nat) (f : string) : option (result config) := read_file fuel (expand f) empty_config.
End Files.

(** configure.py 290-294: add_cli *)
Definition add_cli (c : config) (kvs : list (string * pyval)) : config :=
  pop_file (fold_left (fun c kv => set_item c (fst kv) (snd kv)) kvs (push_file c "<command line>")).

(** configure.py 72-81: configure; [cli] is the result of the argument parser, None where an option was not given *)
Definition given (cli : list (string * option pyval)) : list (string * pyval) :=
  flat_map (fun kv => match snd kv with Some v => [(fst kv, v)] | None => [] end) cli.
(** configure.py 72-81: configure *)
Definition configure files builtins expand (fuel : nat) (file : string) (cli : list (string * option pyval)) : option (result config) :=
  match read_config_file files builtins expand fuel file with
  | Some (Ok c) => Some (Ok (add_cli c (given cli)))
  | r => r
  end.

(** ** type_check *)
(** Type annotations. [TClass]: a class; [TBare]: a generic without subscript; [TGen]: a
    subscripted generic whose arguments are not looked at. *)
Inductive pytype :=
| TBool | TInt | TFloat | TClass (c : string) | TBare (c : string)
| TUnion (l : list pytype) | TSeqOf (t : pytype) | TTupleOf (l : list pytype) | TMapOf (k v : pytype) | TGen (c : string).

(** the classes of a value, most specific first; ABCs included *)
Definition classes (v : pyval) : list string :=
  match v with
  | VNone => ["NoneType"] | VBool _ => ["bool"; "int"] | VNpBool _ => ["numpy.bool_"] | VInt _ => ["int"] | VNpInt _ => ["numpy.integer"]
  | VFloat _ => ["float"] | VNpFloat _ => ["numpy.floating"] | VStr _ => ["str"; "Sequence"] | VSym e _ => [e; "Enum"]
  | VList _ => ["list"; "Sequence"] | VTuple _ => ["tuple"; "Sequence"] | VArray _ => ["numpy.ndarray"] | VDict _ => ["dict"; "Mapping"]
  | VObj mro => mro
  end.
(** for configure.py 120-148: type_check *)
Definition instance_of (v : pyval) (c : string) : bool := existsb (String.eqb c) (classes v) || String.eqb c "object".

(** iteration over a value *)
Fixpoint chars (s : string) : list pyval :=
  match s with EmptyString => [] | String a s => VStr (String a EmptyString) :: chars s end.
(** for configure.py 120-148: type_check *)
Definition iterate (v : pyval) : option (list pyval) :=
  match v with
  | VList l | VTuple l | VArray l => Some l
  | VStr s => Some (chars s)
  | VDict l => Some (map fst l)
  | _ => None
  end.
(** for configure.py 120-148: type_check *)
Definition items (v : pyval) : option (list (pyval * pyval)) := match v with VDict l => Some l | _ => None end.

(** all(...) and any(...) over calls that may raise *)
Fixpoint all_r {A} (f : A -> result bool) (l : list A) : result bool :=
  match l with [] => Ok true | a :: l => match f a with Ok true => all_r f l | r => r end end.
(** for configure.py 120-148: type_check *)
Definition and_r (a b : result bool) : result bool := match a with Ok true => b | r => r end.

(** configure.py 120-148: type_check. numpy.issubdtype of a class that is not a number type is false. *)
Fixpoint type_check (t : pytype) (v : pyval) {struct t} : result bool :=
  match t with
  | TBool => Ok (match v with VBool _ | VNpBool _ => true | _ => false end)
  | TInt => Ok (match v with VInt _ | VNpInt _ => true | _ => false end)
  | TFloat => Ok (match v with VInt _ | VNpInt _ | VFloat _ | VNpFloat _ => true | _ => false end)
  | TClass c => Ok (instance_of v c)
  | TBare c => Ok ((String.eqb c "Sequence" && match v with VArray _ => true | _ => false end) || instance_of v c)
  | TUnion ts =>
    (fix any (ts : list pytype) : result bool :=
       match ts with [] => Ok false | t :: ts => match type_check t v with Ok false => any ts | r => r end end) ts
  | TSeqOf t => match iterate v with None => Err TypeError | Some l => all_r (type_check t) l end
  | TTupleOf ts =>
    match iterate v with
    | None => Err TypeError
    | Some l =>
      (fix zip (ts : list pytype) (l : list pyval) : result bool :=
         match l, ts with
         | v :: l, t :: ts => match type_check t v with Ok true => zip ts l | r => r end
         | _, _ => Ok true
         end) ts l
    end
  | TMapOf k w =>
    match items v with
    | None => Err AttributeError
    | Some l => all_r (fun kv => and_r (type_check k (fst kv)) (type_check w (snd kv))) l
    end
  | TGen c => Ok (instance_of v c)
  end.

(** ** the call of a checked function *)
(** a parameter that can be given by position or keyword; positional-only, keyword-only and
    variadic parameters are not modelled *)
Record param := { pname : string; ptype : pytype; pdefault : option pyval }.

(** configure.py 151-229: compare_signature_to_values, but the warning for unused names *)
Fixpoint check_positional (ps : list param) (pos : list pyval) : result unit :=
  match ps, pos with
  | p :: ps, v :: pos => match type_check (ptype p) v with Ok true => check_positional ps pos | Ok false => Err ValueError | Err e => Err e end
  | _, _ => Ok tt
  end.
(** for configure.py 151-229: compare_signature_to_values *)
Fixpoint check_keywords (ps : list param) (kw : dict pyval) : result unit :=
  match ps with
  | [] => Ok tt
  | p :: ps =>
    match lookup kw (pname p) with
    | None => match pdefault p with None => Err ValueError | Some _ => check_keywords ps kw end
    | Some v => match type_check (ptype p) v with Ok true => check_keywords ps kw | Ok false => Err ValueError | Err e => Err e end
    end
  end.
(** configure.py 151-229: compare_signature_to_values *)
Definition compare_signature_to_values (ps : list param) (pos : list pyval) (kw : dict pyval) : result unit :=
  if (List.length ps <? List.length pos)%nat then Err ValueError else
  rbind (check_positional ps pos) (fun _ => check_keywords (skipn (List.length pos) ps) kw).

(** Python's f( *pos, **kw): the values of the parameters, or a TypeError *)
Fixpoint bind_rest (ps : list param) (kw : dict pyval) : result (dict pyval) :=
  match ps with
  | [] => Ok []
  | p :: ps =>
    match (match lookup kw (pname p) with Some v => Some v | None => pdefault p end) with
    | None => Err TypeError
    | Some v => rbind (bind_rest ps kw) (fun d => Ok ((pname p, v) :: d))
    end
  end.
(** for configure.py 232-245: check_annotations *)
Definition bind_arguments (ps : list param) (pos : list pyval) (kw : dict pyval) : result (dict pyval) :=
  if (List.length ps <? List.length pos)%nat then Err TypeError else
  if existsb (fun kv => negb (existsb (fun p => String.eqb (fst kv) (pname p)) (skipn (List.length pos) ps))) kw then Err TypeError else
  rbind (bind_rest (skipn (List.length pos) ps) kw) (fun d => Ok (combine (map pname (firstn (List.length pos) ps)) pos ++ d)).

(** configure.py 232-245: check_annotations. The state is first_time; the result is the arguments
    with which the function is run. *)
Definition checked_call (first_time : bool) (ps : list param) (pos : list pyval) (kw : dict pyval) : bool * result (dict pyval) :=
  (false, if first_time
          then rbind (compare_signature_to_values ps pos kw) (fun _ => bind_arguments ps pos kw)
          else bind_arguments ps pos kw).

(** ** the city decorator *)
(** components.py 273-276: _check_invalid_event_range_spec *)
Definition is_sym (n : string) (v : pyval) : bool := match v with VSym e m => String.eqb e "EventRange" && String.eqb m n | _ => false end.
(** for components.py 279-291: event_range *)
Definition invalid_event_range (er : list pyval) : bool :=
  negb ((List.length er =? 1) || (List.length er =? 2))%nat || ((List.length er =? 2)%nat && existsb (is_sym "all") er) ||
  match er with [] => false | e :: _ => is_sym "last" e end.

(** components.py 279-291: event_range *)
Definition event_range (given : option pyval) : result pyval :=
  match given with
  | None => Ok (VTuple [VNone; VInt 1])
  | Some er =>
    let wrapped := match er with VList l => (er, l) | VTuple l => (er, l) | VStr s => (er, chars s) | _ => (VTuple [er], [er]) end in
    if invalid_event_range (snd wrapped) then Err ValueError else
    match snd wrapped with
    | [a] => if is_sym "all" a then Ok (VTuple [VNone]) else Ok (fst wrapped)
    | [a; b] => if is_sym "last" b then Ok (VTuple [a; VNone]) else Ok (fst wrapped)
    | _ => Ok (fst wrapped)
    end
  end.

(** for components.py 103-150 *)
Definition control_options : list string :=
  ["config_file"; "print_config_only"; "hide_config"; "no_overrides"; "no_files"; "full_files"; "verbosity"].

(** components.py 132-141: the first occurrence of each file *)
Fixpoint not_before (prefix l : list string) : list string :=
  match l with
  | [] => []
  | f :: l => if existsb (String.eqb f) prefix then not_before (prefix ++ [f]) l else f :: not_before (prefix ++ [f]) l
  end.
(** for components.py 103-150 *)
Definition first_occurrences (l : list string) : list string := not_before [] l.

Section City.
  (** os.path.expandvars and glob.glob *)
  Variables (expandvars : string -> string) (glob : string -> list string).

  (** for components.py 128-141 *)
  Definition expand_value (v : pyval) : result string := match v with VStr s => Ok (expandvars s) | _ => Err TypeError end.

  (** components.py 128-141 *)
  Fixpoint input_files (patterns : list pyval) : result (list string) :=
    match patterns with
    | [] => Ok []
    | p :: ps =>
      rbind (expand_value p) (fun pat =>
      match glob pat with
      | [] => Err FileNotFoundError
      | fs => rbind (input_files ps) (fun rest => Ok (fs ++ rest))
      end)
    end.

  (** components.py 103-150: the arguments the city function is run with, or the exception.
      What happens after the city has run (151-154) is not modelled here. *)
  Definition city (ps : list param) (kwds : dict pyval) : result (dict pyval) :=
    let conf := filter (fun kv => negb (existsb (String.eqb (fst kv)) control_options)) kwds in
    match lookup kwds "files_in" with
    | None => Err NoInputFiles
    | Some fi =>
      match lookup kwds "file_out" with
      | None => Err NoOutputFile
      | Some fo =>
        match (match fi with VStr _ => Some [fi] | _ => iterate fi end) with
        | None => Err TypeError
        | Some patterns =>
          rbind (input_files patterns) (fun fs =>
          let conf := store conf "files_in" (VList (map VStr (first_occurrences fs))) in
          rbind (expand_value fo) (fun fo =>
          let conf := store conf "file_out" (VStr fo) in
          rbind (event_range (lookup conf "event_range")) (fun er =>
          snd (checked_call true ps [] (store conf "event_range" er)))))
        end
      end
    end.
End City.

(** ** sources of events *)
Definition InvalidInputFileStructure : pyexc := Other 34.

(** An input file as seen by the readers; None is a missing node. The trigger tables are read
    with a default of itertools.repeat(None). *)
Record h5file (E W S T C : Type) := {
  h_events : option (list E);      (* Run/events *)
  h_run : option (list Z);         (* Run/runInfo or Run/RunInfo *)
  h_pmt : option (list W);         (* RD/pmtrwf or pmtrd *)
  h_sipm : option (list S);        (* RD/sipmrwf or sipmrd *)
  h_trg : option (list T);         (* Trigger/trigger *)
  h_chn : option (list C) }.       (* Trigger/events *)
Arguments h_events {E W S T C} _. Arguments h_run {E W S T C} _. Arguments h_pmt {E W S T C} _.
Arguments h_sipm {E W S T C} _. Arguments h_trg {E W S T C} _. Arguments h_chn {E W S T C} _.

Section Sources.
  Context {E W S T C : Type}.

  (** for components.py 568-589: wf_from_files *)
  Record waveforms := { w_pmt : W; w_sipm : S; w_run : Z; w_event : E; w_trg : option T; w_chn : option C }.

  (** components.py 501-505: check_lengths, given the known lengths *)
  Fixpoint all_equal (l : list nat) : bool :=
    match l with a :: ((b :: _) as r) => (a =? b)%nat && all_equal r | _ => true end.
  (** for components.py 568-589: wf_from_files *)
  Definition known_length {A} (o : option (list A)) : list nat := match o with Some l => [List.length l] | None => [] end.

  (** zip of three tables and two possibly infinite iterators *)
  Definition next_of {A} (o : option (list A)) : option (option A * option (list A)) :=
    match o with None => Some (None, None) | Some [] => None | Some (a :: l) => Some (Some a, Some l) end.
  (** for components.py 568-589: wf_from_files *)
  Fixpoint zip5 (run : Z) (ws : list W) (ss : list S) (es : list E) (ts : option (list T)) (cs : option (list C)) : list waveforms :=
    match ws, ss, es with
    | w :: ws, s :: ss, e :: es =>
      match next_of ts, next_of cs with
      | Some (t, ts), Some (c, cs) => {| w_pmt := w; w_sipm := s; w_run := run; w_event := e; w_trg := t; w_chn := c |} :: zip5 run ws ss es ts cs
      | _, _ => []
      end
    | _, _, _ => []
    end.

  (** components.py 568-589: wf_from_files; the events yielded and the exception that ends the
      generator, if any *)
  Definition wf_from_file (f : h5file E W S T C) : list waveforms * option pyexc :=
    match h_events f, h_run f with
    | Some es, Some runs =>
      match runs with
      | [] => ([], Some IndexError)
      | run :: _ =>
        match h_pmt f, h_sipm f with
        | Some ws, Some ss =>
          if all_equal ([List.length ws; List.length ss; List.length es] ++ known_length (h_trg f) ++ known_length (h_chn f))
          then (zip5 run ws ss es (h_trg f) (h_chn f), None)
          else ([], Some InvalidInputFileStructure)
        | _, _ => ([], None)
        end
      end
    | _, _ => ([], None)
    end.
  (** components.py 568-589: wf_from_files *)
  Fixpoint wf_from_files (open_file : string -> h5file E W S T C) (paths : list string) : list waveforms * option pyexc :=
    match paths with
    | [] => ([], None)
    | p :: ps =>
      match wf_from_file (open_file p) with
      | (ys, Some e) => (ys, Some e)
      | (ys, None) => let (zs, e) := wf_from_files open_file ps in (ys ++ zs, e)
      end
    end.
End Sources.
Arguments waveforms : clear implicits.
