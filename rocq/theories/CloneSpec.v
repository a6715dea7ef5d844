(** Specification: the answer of a server to "show create table", what a copy of a table is, and the ranges of runs of a table *)
From Coq Require Import Ascii String.
From Verif Require Import Base.
Local Open Scope string_scope.
Definition chars := list_ascii_of_string.
(** [p] is somewhere in [s] *)
Definition occurs (p s : list ascii) : Prop := exists a b, s = (a ++ p ++ b)%list.

(** ---- statements. A column has a name, a type and perhaps a comment; a table may have a primary key and one more index ---- *)
Record column := { c_name : list ascii; c_type : list ascii; c_comment : option (list ascii) }.
Definition column_text (c : column) : list ascii := (chars "  `" ++ c_name c ++ chars "` " ++ c_type c)%list.
Definition comment_text (c : column) : list ascii := match c_comment c with None => [] | Some t => (chars " COMMENT '" ++ t ++ chars "'")%list end.
Definition key_text (k : list ascii) : list ascii := (chars "  KEY " ++ k)%list.
(** the items of a statement are separated by commas *)
Fixpoint separated (items : list (list ascii)) : list (list ascii) :=
  match items with [] => [] | [x] => [x] | x :: r => (x ++ chars ",")%list :: separated r end.
Definition header (name : list ascii) : list ascii := (chars "CREATE TABLE `" ++ name ++ chars "` (")%list.
Definition primary_text (primary : option (list ascii)) : list (list ascii) :=
  match primary with None => [] | Some p => [(chars "  PRIMARY KEY (" ++ p ++ chars ")")%list] end.
(** what the server answers *)
Definition show_create (name : list ascii) (cols : list column) (primary : option (list ascii)) (keys : list (list ascii)) (engine : list ascii) : list (list ascii) :=
  (header name :: separated (map (fun c => (column_text c ++ comment_text c)%list) cols ++ primary_text primary ++ map key_text keys) ++ [chars ") ENGINE" ++ engine])%list.
(** the statement that sqlite understands: columns and primary key *)
Definition plain_lines (name : list ascii) (cols : list column) (primary : option (list ascii)) : list (list ascii) :=
  (header name :: separated (map column_text cols ++ primary_text primary) ++ [chars ")"])%list.
(** a text, with its ends of line *)
Fixpoint text (lines : list (list ascii)) : list ascii := match lines with [] => [] | [l] => l | l :: r => (l ++ "010"%char :: text r)%list end.
(** nothing but comments speaks of comments or engines *)
Definition quiet (s : list ascii) : Prop := ~ occurs (chars " COMMENT") s /\ ~ occurs (chars "ENGINE") s.
Definition ordinary (name : list ascii) (cols : list column) (primary : option (list ascii)) (keys : list (list ascii)) : Prop :=
  quiet (header name) /\ (forall c, In c cols -> quiet (column_text c)) /\ (forall p, In p (primary_text primary) -> quiet p) /\ (forall k, In k keys -> quiet (key_text k)).

(** ---- copies: the table has the name, and the rows that the server has ---- *)
Definition copy_of {S} (server : list (string * (S * list (list Z)))) (n : string) (t : string * (nat * list (list Z))) : Prop :=
  fst t = n /\ exists s, In (n, (s, snd (snd t))) server.
(** what an interrupted copy may leave: the first tables, complete, and perhaps the next one, created but empty *)
Definition copied_up_to {S} (server : list (string * (S * list (list Z)))) (tables : list string) (file : list (string * (nat * list (list Z)))) : Prop :=
  exists ready todo, tables = (ready ++ todo)%list /\
    (Forall2 (copy_of server) ready file \/
     exists n rest columns before, todo = n :: rest /\ file = (before ++ [(n, (columns, []))])%list /\ Forall2 (copy_of server) ready before).
(** a table of the server that sqlite understands: an ordinary statement with at most one more index, rows with a value for each column, that the keys allow *)
Definition sound_table (parse : list ascii -> option (string * nat)) (admits : string -> list (list Z) -> bool)
    (server : list (string * (list (list ascii) * list (list Z)))) (n : string) : Prop :=
  exists cols primary keys engine rows,
    In (n, (show_create (chars n) cols primary keys engine, rows)) server /\ cols <> [] /\ (List.length keys <= 1)%nat /\ ordinary (chars n) cols primary keys /\
    (forall body, text (plain_lines (chars n) cols primary) = (body ++ "010"%char :: chars ")")%list ->
       parse (body ++ "010"%char :: chars ")")%list = Some (n, List.length cols) /\ parse (body ++ chars ")")%list = Some (n, List.length cols)) /\
    (forall r, In r rows -> List.length r = List.length cols) /\
    (forall a b, rows = (a ++ b)%list -> admits n a = true).

(** ---- ranges ---- *)
Definition has_range (sipms : bool) (rows : list (Z * (Z * option Z))) (r : Z * option Z) : Prop :=
  exists s, In (s, r) rows /\ (if sipms then 100 < s else s < 100)%Z.
Definition small (rows : list (Z * (Z * option Z))) : Prop :=
  forall s lo hi, In (s, (lo, hi)) rows -> (Z.abs lo < 10000000)%Z /\ (forall x, hi = Some x -> (Z.abs x < 10000000)%Z).
