(** Model of database/download.py (loadDB), that makes the local copy of the conditions database, and of database/check_gain_update.py, that compares it with the server.
    A text is the list of its lines, without the ends of line; a value of a table is an integer *)
From Coq Require Import Ascii String.
From Verif Require Import Base.
Local Open Scope string_scope.
(** for download.py 14-33: create_table_sqlite *)
Definition line := list ascii.
(** for download.py 14-33: create_table_sqlite *)
Definition row := list Z.

(** ---- download.py 14-33: create_table_sqlite, the text given to sqlite ---- *)
Fixpoint starts (p s : line) : option line :=
  match p, s with [], _ => Some s | c :: p, d :: s => if Ascii.eqb c d then starts p s else None | _ :: _, [] => None end.
(** for download.py 14-33: create_table_sqlite *)
Definition is_space (c : ascii) : bool := Ascii.eqb c " " || Ascii.eqb c "009".
(** for download.py 14-33: create_table_sqlite *)
Fixpoint drop_spaces (s : line) : line := match s with [] => [] | c :: r => if is_space c then drop_spaces r else s end.
(** for download.py 14-33: create_table_sqlite *)
Definition quote : ascii := "'".
(** with download.py 14-33: create_table_sqlite *)
Fixpoint after_last_quote (s : line) : option line :=
  match s with [] => None | c :: r => match after_last_quote r with Some x => Some x | None => if Ascii.eqb c quote then Some r else None end end.
(** 22: what follows a match of [ COMMENT\s+\'.*\'] at the beginning of [s] *)
Definition comment_at (s : line) : option line :=
  match starts (list_ascii_of_string " COMMENT") s with
  | Some (c :: r) => if is_space c then match drop_spaces r with d :: t => if Ascii.eqb d quote then after_last_quote t else None | [] => None end else None
  | _ => None
  end.
(** after a match no quote is left in the line *)
Fixpoint strip_comment (s : line) : line := match comment_at s with Some rest => rest | None => match s with [] => [] | c :: r => c :: strip_comment r end end.
(** 26: [\s*ENGINE.*]. A line that begins with ENGINE is left empty here; python removes also the end of the line before *)
Fixpoint strip_engine (s : line) : line :=
  match starts (list_ascii_of_string "ENGINE") (drop_spaces s) with Some _ => [] | None => match s with [] => [] | c :: r => c :: strip_engine r end end.
(** 31: [,\s*\n\s*KEY.*[\n,]]: the comma at the end of a line, the line with the KEY and its end; the match takes the comma at the end of that line, so that a second KEY is
    not seen. Blank lines between the two, and a KEY in the last line of the text, are not modelled *)
Definition trim (s : line) : line := rev (drop_spaces (rev s)).
(** for download.py 14-33: create_table_sqlite *)
Definition before_comma (s : line) : option line := match rev (trim s) with c :: r => if Ascii.eqb c "," then Some (rev r) else None | [] => None end.
(** for download.py 14-33: create_table_sqlite *)
Definition is_key (s : line) : bool := match starts (list_ascii_of_string "KEY") (drop_spaces s) with Some _ => true | None => false end.
(** for download.py 14-33: create_table_sqlite *)
Fixpoint strip_keys (lines : list line) : list line :=
  match lines with
  | l :: (k :: ((_ :: _) as rest)) as tl =>
    match before_comma l, is_key k with
    | Some l', true => match strip_keys rest with h :: t => (l' ++ h)%list :: t | [] => [l'] end
    | _, _ => l :: strip_keys tl
    end
  | _ => lines
  end.
(** for download.py 14-33: create_table_sqlite *)
Fixpoint join_lines (lines : list line) : line := match lines with [] => [] | [l] => l | l :: r => (l ++ "010"%char :: join_lines r)%list end.
(** with download.py 14-33: create_table_sqlite *)
Definition sqlite_text (statement : list line) : line := join_lines (strip_keys (map strip_engine (map strip_comment statement))).

(** ---- the two databases. A table of sqlite has a number of columns and rows; [disk] is the file, [work] what the connection sees, [opened] whether it has a transaction ---- *)
Definition table := (nat * list row)%type.
(** for download.py 14-33: create_table_sqlite *)
Record conn := { disk : list (string * table); work : list (string * table); opened : bool }.
(** with download.py 14-33: create_table_sqlite *)
Definition lookup {A} (n : string) (l : list (string * A)) : option A := match find (fun x => String.eqb (fst x) n) l with Some x => Some (snd x) | None => None end.
(** with download.py 14-33: create_table_sqlite *)
Definition add_row (n : string) (r : row) (l : list (string * table)) : list (string * table) :=
  map (fun '(m, (k, rows)) => if String.eqb m n then (m, (k, (rows ++ [r])%list)) else (m, (k, rows))) l.
(** The errors: 80 of the server, 81 sqlite3.OperationalError, 82 sqlite3.IntegrityError *)
Definition steps := (list conn * result conn)%type.
(** with download.py 14-33: create_table_sqlite *)
Definition then_do (s : steps) (f : conn -> steps) : steps := match s with (t, Ok c) => let (t', r) := f c in ((t ++ t')%list, r) | (t, Err e) => (t, Err e) end.

Section Clone.
(** what sqlite makes of a text (the name of the table and the number of its columns), and whether a table can have these rows (its keys) *)
Variable parse : line -> option (string * nat).
Variable admits : string -> list row -> bool.
(** the tables of the server: the answer to show create table and the rows *)
Variable server : list (string * (list line * list row)).

(** 14-33. A statement that defines a table is not part of a transaction when none is opened *)
Definition create_table_sqlite (n : string) (c : conn) : steps :=
  match lookup n server with
  | None => ([], Err (Other 80))
  | Some (statement, _) =>
    match parse (sqlite_text statement) with
    | None => ([], Err (Other 81))
    | Some (m, k) =>
      match lookup m (work c) with
      | Some _ => ([], Err (Other 81))
      | None => let w := (work c ++ [(m, (k, []))])%list in let c' := {| disk := if opened c then disk c else w; work := w; opened := opened c |} in ([c'], Ok c')
      end
    end
  end.
(** executemany: row by row, in a transaction *)
Fixpoint insert_rows (n : string) (nfields : nat) (rows : list row) (c : conn) : steps :=
  match rows with
  | [] => ([], Ok c)
  | r :: rows =>
    match lookup n (work c) with
    | None => ([], Err (Other 81))
    | Some (k, old) =>
      if negb (k =? nfields)%nat || negb (List.length r =? nfields)%nat then ([], Err (Other 81)) else
      if negb (admits n (old ++ [r])%list) then ([], Err (Other 82)) else
      let c' := {| disk := disk c; work := add_row n r (work c); opened := true |} in then_do ([c'], Ok c') (insert_rows n nfields rows)
    end
  end.
(** with download.py 14-33: create_table_sqlite *)
Definition commit (c : conn) : steps := let c' := {| disk := work c; work := work c; opened := false |} in ([c'], Ok c').
(** 36-49 *)
Definition copy_all_rows (n : string) (c : conn) : steps :=
  match lookup n server with
  | None => ([], Err (Other 80))
  | Some (_, data) => match data with [] => ([c], Ok c) | r :: _ => then_do (insert_rows n (List.length r) data c) commit end
  end.
(** 63-70 *)
Fixpoint copy_tables (tables : list string) (c : conn) : steps :=
  match tables with [] => ([], Ok c) | n :: tables => then_do (then_do (create_table_sqlite n c) (copy_all_rows n)) (copy_tables tables) end.
(** 52-70: the file is removed, when it can be, before the server is reached. The result has the states of the connection after each step; what a crash leaves is [disk] *)
Definition loadDB (removable reachable : bool) (old : list (string * table)) (tables : list string) : steps :=
  let start := if removable then [] else old in
  let c := {| disk := start; work := start; opened := false |} in
  then_do ([c], Ok c) (fun c => if reachable then copy_tables tables c else ([], Err (Other 80))).
End Clone.

(** ---- check_gain_update.py 12-32: check_minrun_maxrun. A row of the table has the sensor and the range of runs; MaxRun may be NULL, that is NaN in the arrays ---- *)
Local Open Scope Z_scope.
(** for check_gain_update.py 12-32: check_minrun_maxrun *)
Definition range := (Z * option Z)%type.
(** ORDER BY MinRun, MaxRun: NULL first *)
Definition le_max (a b : option Z) : bool := match a, b with None, _ => true | Some _, None => false | Some x, Some y => x <=? y end.
(** for check_gain_update.py 12-32: check_minrun_maxrun *)
Definition le_range (a b : range) : bool := if fst a <? fst b then true else if fst a =? fst b then le_max (snd a) (snd b) else false.
(** with check_gain_update.py 12-32: check_minrun_maxrun *)
Definition eq_range (a b : range) : bool := le_range a b && le_range b a.
(** select distinct ... ORDER BY: insertion without the repeated ones *)
Fixpoint put (x : range) (l : list range) : list range :=
  match l with [] => [x] | y :: r => if eq_range x y then l else if le_range x y then x :: l else y :: put x r end.
(** for check_gain_update.py 12-32: check_minrun_maxrun *)
Definition distinct_ordered (l : list range) : list range := fold_right put [] l.
(** for check_gain_update.py 12-32: check_minrun_maxrun *)
Definition ranges_of (sipms : bool) (rows : list (Z * range)) : list range :=
  distinct_ordered (map snd (filter (fun r => if sipms then 100 <? fst r else fst r <? 100) rows)).
(** numpy.testing.assert_allclose with its default tolerance: |a - b| <= 1e-7 |b|, NaN equal to NaN *)
Definition close (a b : Z) : bool := 10000000 * Z.abs (a - b) <=? Z.abs b.
(** for check_gain_update.py 12-32: check_minrun_maxrun *)
Definition close_max (a b : option Z) : bool := match a, b with None, None => true | Some x, Some y => close x y | _, _ => false end.
(** for check_gain_update.py 12-32: check_minrun_maxrun *)
Fixpoint allclose (l m : list range) : bool :=
  match l, m with [], [] => true | a :: l, b :: m => close (fst a) (fst b) && close_max (snd a) (snd b) && allclose l m | _, _ => false end.
(** check_gain_update.py 12-32: check_minrun_maxrun *)
Definition check_minrun_maxrun (sipms : bool) (mysql sqlite : list (Z * range)) : result (option Z) :=
  if allclose (ranges_of sipms mysql) (ranges_of sipms sqlite)
  then Ok (match rev (ranges_of sipms sqlite) with [] => None | r :: _ => Some (fst r) end)
  else Err AssertionError.
