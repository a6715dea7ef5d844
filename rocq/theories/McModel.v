(** Model of the parts of invisible_cities/io/mcinfo_io.py that number the merged files and that
    attribute the rows of old files to events *)
From Verif Require Import Base.
Local Open Scope nat_scope.

(** ---- mc_writer ---- *)
Section Merge.
  (** the contents of a row of the tables configuration and event_mapping, apart from the file index *)
  Variable R : Type.

  (** a table with or without the column file_index *)
  Inductive mctable := Indexed (l : list (R * Z)) | NotIndexed (l : list R).
  (** for mcinfo_io.py 45-75: write_mctables *)
  Inductive mckind := Configuration | EventMapping | OtherTable.

  (** tbl.file_index.unique() *)
  Fixpoint unique_from (seen l : list Z) : list Z :=
    match l with [] => [] | a :: l => if existsb (Z.eqb a) seen then unique_from seen l else a :: unique_from (a :: seen) l end.
  (** for mcinfo_io.py 58-70 *)
  Definition unique (l : list Z) : list Z := unique_from [] l.

  (** mcinfo_io.py 64-65: tbl.replace(dict(file_index=orig), new, inplace=True), for one pair and for all of them one after the other *)
  Definition replace (orig new : Z) (l : list (R * Z)) : list (R * Z) := map (fun '(r, i) => (r, if (i =? orig)%Z then new else i)) l.
  (** for mcinfo_io.py 58-70 *)
  Fixpoint replace_all (origs : list Z) (new : Z) (l : list (R * Z)) : list (R * Z) :=
    match origs with [] => l | o :: origs => replace_all origs (new + 1) (replace o new l) end.

  (** mcinfo_io.py 58-70: the new file indices of a table *)
  Definition renumber (first : Z) (t : mctable) : list (R * Z) :=
    match t with
    | Indexed l => replace_all (unique (map snd l)) first l
    | NotIndexed l => map (fun r => (r, first)) l
    end.

  (** the two tables of the group MC of the output that have a file index; None before the first write *)
  Record mcfile := { m_config : option (list (R * Z)); m_map : option (list (R * Z)) }.
  (** components.py 332-334: append *)
  Definition append (t : option (list (R * Z))) (l : list (R * Z)) : option (list (R * Z)) := Some (match t with Some t => t ++ l | None => l end).

  (** mcinfo_io.py 79-98: check_last_merge_index; the last element of an empty column is an IndexError *)
  Definition check_last_merge_index (h : mcfile) : result Z :=
    match m_map h with
    | None => Ok (-1)%Z
    | Some l => match rev l with [] => Err IndexError | (_, i) :: _ => Ok i end
    end.

  (** mcinfo_io.py 45-75: write_mctables; other tables are copied without change and not modelled *)
  Fixpoint write_tables (first : Z) (h : mcfile) (d : list (mckind * mctable)) : mcfile :=
    match d with
    | [] => h
    | (Configuration, t) :: d => write_tables first {| m_config := append (m_config h) (renumber first t); m_map := m_map h |} d
    | (EventMapping, t) :: d => write_tables first {| m_config := m_config h; m_map := append (m_map h) (renumber first t) |} d
    | (OtherTable, _) :: d => write_tables first h d
    end.
  (** mcinfo_io.py 46-75: write_mctables *)
  Definition write_mctables (h : mcfile) (d : list (mckind * mctable)) : result mcfile :=
    rbind (check_last_merge_index h) (fun last => Ok (write_tables (last + 1) h d)).

  (** components.py 365-372: the files are copied one after the other *)
  Fixpoint write_all (h : mcfile) (files : list (list (mckind * mctable))) : result mcfile :=
    match files with [] => Ok h | d :: files => rbind (write_mctables h d) (fun h => write_all h files) end.
  (** with components.py 365-372 *)
  Definition new_file : mcfile := {| m_config := None; m_map := None |}.
End Merge.
Arguments Indexed {R}. Arguments NotIndexed {R}. Arguments replace {R}. Arguments replace_all {R}. Arguments renumber {R}.
Arguments m_config {R}. Arguments m_map {R}. Arguments append {R}. Arguments check_last_merge_index {R}. Arguments write_tables {R}.
Arguments write_mctables {R}. Arguments write_all {R}. Arguments new_file {R}.

(** ---- files before 2020 ---- *)
(** a row of the table extents: the event and the index of its last hit (or particle) *)
Record extent := { x_event : Z; x_last : Z }.

Section Old.
  Variable R : Type.
  (** mcinfo_io.py 540-547: hits.merge(evt_hit_df, left_index=True, right_index=True, how='left'): a row of [hits] for each extent
      that ends at it, or one without event *)
  Definition merge_row (ext : list extent) (i : nat) (r : R) : list (R * option Z) :=
    match filter (fun x => (x_last x =? Z.of_nat i)%Z) ext with
    | [] => [(r, None)]
    | l => map (fun x => (r, Some (x_event x))) l
    end.
  (** for mcinfo_io.py 510-554 *)
  Fixpoint merge_from (ext : list extent) (i : nat) (hits : list R) : list (R * option Z) :=
    match hits with [] => [] | r :: hits => merge_row ext i r ++ merge_from ext (S i) hits end.
  (** mcinfo_io.py 549: hits.event_id.bfill().astype(int); a NaN left at the end cannot be converted *)
  Fixpoint bfill (l : list (R * option Z)) : list (R * option Z) :=
    match l with
    | [] => []
    | (r, Some e) :: l => (r, Some e) :: bfill l
    | (r, None) :: l => let l := bfill l in (r, match l with (_, e) :: _ => e | [] => None end) :: l
    end.
  (** for mcinfo_io.py 510-554 *)
  Definition to_int (l : list (R * option Z)) : result (list (R * Z)) :=
    rmap (fun '(r, e) => match e with Some e => Ok (r, e) | None => Err ValueError end) l.
  (** mcinfo_io.py 510-554 load_mchits_dfold (with last_hit) and 622-682 load_mcparticles_dfold (with last_particle) *)
  Definition load_dfold (ext : list extent) (hits : list R) : result (list (R * Z)) := to_int (bfill (merge_from ext 0 hits)).
End Old.
Arguments merge_row {R}. Arguments merge_from {R}. Arguments bfill {R}. Arguments to_int {R}. Arguments load_dfold {R}.
