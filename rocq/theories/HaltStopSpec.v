(** What C121 says that a run leaves when it is stopped while it does an event: [more] when the event is not listed in Run, where the other tables may have rows of it;
    [same] when it is, where every table has all its rows. What the city counts, and the list of event numbers, are not in the file. *)
From Coq Require Import String.
From Verif Require Import Base ConfigModel TablesModel PsfModel DeconvModel PeaksModel BuffersModel.
From Verif Require Import ReadModel.
From Verif Require Import PmapioModel FiltersModel XyModel HitsModel CorrModel EsmModel SophModel SoeModel KrModel PreadModel DorModel SrunModel.
From Verif Require Import PaolinaModel TopoModel ErunModel BeerModel BrunModel IsaModel FrunModel HrunModel IsiModel.
From Verif Require Import HaltSpec.
Local Open Scope nat_scope.

Definition dor_more (it : pitem) (before after : dout) : Prop :=
  do_info after = do_info before /\ grown fst (pi_event it) (do_filter before) (do_filter after) /\ grown w_event (pi_event it) (do_rows before) (do_rows after).
Definition dor_same (a b : dout) : Prop := do_info b = do_info a /\ do_filter b = do_filter a /\ do_rows b = do_rows a.

Definition sop_more' (it : pitem) (before after : sout) : Prop :=
  so_info after = so_info before /\ grown fst (pi_event it) (so_filter before) (so_filter after) /\ grown fst (pi_event it) (so_valid before) (so_valid after) /\
  grown w_event (pi_event it) (so_rows before) (so_rows after) /\ grown fst (pi_event it) (so_hits before) (so_hits after).
Definition sop_same (a b : sout) : Prop := so_info b = so_info a /\ so_filter b = so_filter a /\ so_valid b = so_valid a /\ so_rows b = so_rows a /\ so_hits b = so_hits a.

Definition esm_more {K} (it : hitem (Z * hit) K) (before after : eout K) : Prop :=
  eo_info after = eo_info before /\ grown fst (i_event it) (eo_select before) (eo_select after) /\ grown fst (i_event it) (eo_topology before) (eo_topology after) /\
  grown TopoModel.s_event (i_event it) (eo_summary before) (eo_summary after) /\ grown c_number (i_event it) (eo_hits before) (eo_hits after) /\ grown k_event (i_event it) (eo_tracks before) (eo_tracks after) /\
  (eo_kdst after = eo_kdst before \/ eo_kdst after = eo_kdst before ++ i_kdst it).
Definition esm_same {K} (a b : eout K) : Prop :=
  eo_info b = eo_info a /\ eo_select b = eo_select a /\ eo_topology b = eo_topology a /\ eo_summary b = eo_summary a /\ eo_hits b = eo_hits a /\ eo_tracks b = eo_tracks a /\ eo_kdst b = eo_kdst a.

Definition bee_more {K} (it : hitem (Z * hit) K) (before after : bout K) : Prop :=
  br_info after = br_info before /\ grown fst (i_event it) (br_hits before) (br_hits after) /\ grown fst (i_event it) (br_filter before) (br_filter after) /\
  grown fst (i_event it) (br_deco before) (br_deco after) /\ (br_kdst after = br_kdst before \/ br_kdst after = br_kdst before ++ i_kdst it).
Definition bee_same {K} (a b : bout K) : Prop := br_info b = br_info a /\ br_hits b = br_hits a /\ br_filter b = br_filter a /\ br_deco b = br_deco a /\ br_kdst b = br_kdst a.

Definition isa_more {K} (it : ditem (K := K)) (before after : isaout K) : Prop :=
  is_info after = is_info before /\ is_kdst after = is_kdst before /\ grown fst (x_event it) (is_select before) (is_select after) /\ grown fst (x_event it) (is_topology before) (is_topology after) /\
  grown TopoModel.s_event (x_event it) (is_summary before) (is_summary after) /\ grown ir_number (x_event it) (is_hits before) (is_hits after) /\ grown k_event (x_event it) (is_tracks before) (is_tracks after).
(** isaura writes the rows of DST/Events last, so that an event may be listed without them *)
Definition isa_same {K} (a b : isaout K) : Prop :=
  is_info b = is_info a /\ is_select b = is_select a /\ is_topology b = is_topology a /\ is_summary b = is_summary a /\ is_hits b = is_hits a /\ is_tracks b = is_tracks a /\ exists l, is_kdst a = is_kdst b ++ l.
