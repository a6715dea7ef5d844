(** The copy of the simulation tables to the output of a city: /repo/invisible_cities/cities/components.py 338-379 and
    /repo/invisible_cities/io/mcinfo_io.py 28-76, 100-242, 289-331. Files in the format since 2020; the renumbering of the
    merged files is that of C33 and is left out, as are the readers of the old format. *)
From Verif Require Import Base.
Local Open Scope Z_scope.

(** for components.py 338-379: copy_mc_info *)
Definition MCEventNotFound : pyexc := Other 62.

Section Rows.
  (** the contents of a row *)
  Variable R : Type.
  (** the tables with a row per event and thing, and those without events *)
  Inductive key := Hits | Particles | Response.
  (** with invisible_cities/io/mcinfo_io.py 28-76, 100-242, 289-331 *)
  Inductive wkey := Config | Positions | StringMap.
  (** the group MC; [m_mapping]: the column event_id of event_mapping *)
  Record mc := { m_data : key -> option (list (Z * R)); m_mapping : option (list Z); m_whole : wkey -> option (list R) }.
  (** a file: its group MC and its table Run/eventMap (evt_number, nexus_evt) *)
  Record file := { f_mc : option mc; f_map : option (list (Z * Z)) }.

  (** for mcinfo_io.py 100-135: safe_copy_nexus_eventmap *)
  Definition memZ (x : Z) (l : list Z) : bool := existsb (Z.eqb x) l.
  (** np.unique *)
  Fixpoint insertZ (x : Z) (l : list Z) : list Z := match l with [] => [x] | y :: l' => if x <? y then x :: l else if x =? y then l else y :: insertZ x l' end.
  (** for mcinfo_io.py 289-331: get_event_numbers_in_file *)
  Definition uniqueZ (l : list Z) : list Z := fold_right insertZ [] l.
  (** mcinfo_io.py 289-331: get_event_numbers_in_file: the events with particles, or those with light when there are no particles at all *)
  Definition get_event_numbers_in_file (m : mc) : result (list Z) :=
    match m_data m Particles with
    | None => Err AttributeError
    | Some [] => match m_data m Response with None => Err AttributeError | Some l => Ok (uniqueZ (map fst l)) end
    | Some l => Ok (uniqueZ (map fst l))
    end.
  (** dst_io.df_writer: more rows for a table, created if needed *)
  Definition append {A} (old : option (list A)) (l : list A) : option (list A) := Some (match old with Some o => o ++ l | None => l end).
  (** mcinfo_io.py 100-135: safe_copy_nexus_eventmap: the output and the pairs (evt_number, nexus_evt) copied *)
  Definition safe_copy_nexus_eventmap (out : file) (events : list Z) (m : mc) (map_in : option (list (Z * Z))) : result (file * list (Z * Z)) :=
    match map_in with
    | Some l => let sel := filter (fun p => memZ (fst p) events) l in Ok ({| f_mc := f_mc out; f_map := append (f_map out) sel |}, sel)
    | None => rbind (get_event_numbers_in_file m) (fun es => Ok (out, map (fun e => (e, e)) (filter (fun e => memZ e es) (uniqueZ events))))
    end.
  (** for mcinfo_io.py 138-242 *)
  Definition empty_mc : mc := {| m_data := fun _ => None; m_mapping := None; m_whole := fun _ => None |}.
  (** mcinfo_io.py 138-242 with mc_writer: the tables of the file, those with events filtered; a table event_mapping is made when there is none.
      79-97, 58: the last file index of an empty table event_mapping is an IndexError. *)
  Definition copy_tables (out : file) (m : mc) (which : list Z) : result file :=
    let o := match f_mc out with Some o => o | None => empty_mc end in
    match m_mapping o with
    | Some [] => Err IndexError
    | _ => Ok {| f_mc := Some {| m_data := fun k => match m_data m k with None => m_data o k | Some l => append (m_data o k) (filter (fun r => memZ (fst r) which) l) end;
                                 m_mapping := append (m_mapping o) (match m_mapping m with Some l => filter (fun e => memZ e which) l | None => which end);
                                 m_whole := fun k => match m_whole m k with None => m_whole o k | Some l => append (m_whole o k) l end |};
                 f_map := f_map out |}
    end.
  (** components.py 366-377: one file *)
  Definition copy_file (events : list Z) (out : file) (f : file) : result (file * list Z) :=
    match f_mc f with
    | None => Ok (out, [])
    | Some m => rbind (safe_copy_nexus_eventmap out events m (f_map f)) (fun '(out, sel) => rbind (copy_tables out m (map snd sel)) (fun out => Ok (out, map fst sel)))
    end.
  (** for components.py 338-379: copy_mc_info *)
  Fixpoint copy_files (events : list Z) (out : file) (copied : list Z) (files : list file) : result (file * list Z) :=
    match files with [] => Ok (out, copied) | f :: files => rbind (copy_file events out f) (fun '(out, c) => copy_files events out (copied ++ c) files) end.
  (** components.py 338-379: copy_mc_info *)
  Definition copy_mc_info (files : list file) (out : file) (events : list Z) : result file :=
    rbind (copy_files events out [] files) (fun '(out, copied) => if forallb (fun e => memZ e copied) events then Ok out else Err MCEventNotFound).
End Rows.
Arguments m_data {R}. Arguments m_mapping {R}. Arguments m_whole {R}. Arguments f_mc {R}. Arguments f_map {R}.
Arguments get_event_numbers_in_file {R}. Arguments safe_copy_nexus_eventmap {R}. Arguments empty_mc {R}. Arguments copy_tables {R}. Arguments copy_file {R}. Arguments copy_files {R}. Arguments copy_mc_info {R}.
