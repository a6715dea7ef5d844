(** Model of the correction maps in files: reco/corrections.py 17-71 and 177-202, with CorrModel.v for the correction itself *)
From Verif Require Import Base PeaksModel CorrModel.
Local Open Scope Q_scope.

(** the table time_evolution: the columns used by the correction and dv, where nan is [None] *)
Record stored_evolution := { se_evol : evolution; se_dv : list val }.
(** corrections.py 55-65: what pandas.read_hdf gives for each table of the file, or its exception: KeyError for one that is not there. mapinfo is the run number and the geometry. *)
Record map_file := { mf_chi2 : result grid; mf_e0 : result grid; mf_e0u : result grid; mf_lt : result grid; mf_ltu : result grid; mf_info : result (Z * mapinfo); mf_evol : result stored_evolution }.
(** corrections.py 17-25: ASectorMap, with mapinfo in two parts *)
Record maps := { am_chi2 : grid; am_e0 : grid; am_lt : grid; am_e0u : grid; am_ltu : grid; am_run : Z; am_info : mapinfo; am_evol : option stored_evolution }.

(** corrections.py 27-71: read_maps; the bare except catches everything *)
Definition read_maps (f : map_file) : result maps :=
  rbind (mf_chi2 f) (fun chi2 => rbind (mf_e0 f) (fun e0 => rbind (mf_e0u f) (fun e0u => rbind (mf_lt f) (fun lt => rbind (mf_ltu f) (fun ltu => rbind (mf_info f) (fun '(run, info) =>
  let t_evol := if (0 <? run)%Z then match mf_evol f with Ok t => Some t | Err _ => None end else None in
  Ok {| am_chi2 := chi2; am_e0 := e0; am_lt := lt; am_e0u := e0u; am_ltu := ltu; am_run := run; am_info := info; am_evol := t_evol |})))))).

(** corrections.py 278-348: what the correction takes from the maps *)
Definition sector (m : maps) : sector_map := {| sm_info := am_info m; sm_e0 := am_e0 m; sm_lt := am_lt m; sm_evol := match am_evol m with Some t => Some (se_evol t) | None => None end |}.

(** corrections.py 177-202: get_df_to_z_converter, for a drift time. numpy.mean of a column leaves nan out. *)
Definition get_df_to_z_converter (m : option maps) : result (Q -> val) :=
  match m with
  | Some {| am_evol := Some t |} => let dv := nanmean (se_dv t) in Ok (fun dt => vmap (fun v => dt * v) dv)
  | _ => Err time_evolution_table_missing
  end.
