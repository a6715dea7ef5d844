(** Vocabulary for C112 *)
From Coq Require Import String.
From Verif Require Import Base ReadModel ReadSpec PsfModel DeconvModel HitsModel HitsSpec PaolinaModel TopoModel ErunModel ErunSpec IsaModel.
Local Open Scope nat_scope.

(** the columns that a table needs: those of the first kind if it has Xpeak, those of the second otherwise; Q is not needed *)
Definition good_columns (names : list string) : Prop :=
  (In "Xpeak" names /\ forall n, In n ["event"; "time"; "npeak"; "Ypeak"; "X"; "Y"; "Z"; "E"; "Ec"; "track_id"; "Ep"] -> In n names)%string \/
  (~ In "Xpeak" names /\ forall n, In n ["event"; "npeak"; "X"; "Y"; "Z"; "E"] -> In n names)%string.

(** a file that is skipped: no deconvolved hits, or no run *)
Definition skipped {K} (f : dfile K) : Prop := f_hits (df_file f) = None \/ f_runs (df_file f) = None \/ f_runs (df_file f) = Some [].
(** a file that can be read: it has a table of events that lists those of all the hits, and the columns that are needed. The energies are positive. *)
Definition readable {K} (f : dfile K) : Prop :=
  exists hits run runs events, f_hits (df_file f) = Some hits /\ f_runs (df_file f) = Some (run :: runs) /\ f_events (df_file f) = Some events /\
    good_columns (df_columns f) /\ forall h, In h hits -> In (ReadModel.d_event h) (map fst events) /\ (0 < d_E h)%Q.

(** the items read from a file: one per event that has hits, in order of appearance *)
Definition read_deco {K} (k_event : K -> Z) (f : dfile K) (part : list (ditem (K := K))) : Prop :=
  (skipped f /\ part = []) \/
  exists hits run runs events evs, f_hits (df_file f) = Some hits /\ f_runs (df_file f) = Some (run :: runs) /\ f_events (df_file f) = Some events /\
    McSpec.appear evs (map ReadModel.d_event hits) /\ Forall2 (deco_item k_event hits (f_kdst (df_file f)) run events) evs part.

Section Tables.
  Context {K : Type}.
  Variables (others : drow -> nat) (round5 : Q -> Q) (max_num_hits : Z).
  (** a deconvolved hit as the tracks see it: its corrected energy is its energy *)
  Definition as_hit (h : drow) : hit :=
    {| hmeta := others h; npeak := d_npeak h; hX := fst (fst (d_pos h)); hY := snd (fst (d_pos h)); hZ := snd (d_pos h); hQ := d_Q h; hE := Some (d_E h); hEc := Some (d_E h) |}.
  (** what the tables and counters of a run hold, for the events [items] of its input *)
  Definition isaura_tables (items : list (ditem (K := K))) (o : isaout K) : Prop :=
    exists ws, Forall2 (fun it w => x_hits it <> [] /\ tracks_written hmeta round5 max_num_hits (x_event it) (map as_hit (x_hits it)) w) items ws /\
      is_select o = map (fun it => (x_event it, true)) items /\
      is_topology o = concat (map2 (fun it w => map (pair (x_event it)) (w_topology w)) items ws) /\
      is_summary o = flat_map w_summary ws /\ is_tracks o = flat_map w_tracks ws /\
      is_hits o = concat (map2 (fun it w => map (fun h => {| ir_number := x_event it; ir_hit := nth (o_row h) (x_hits it) no_row; ir_out := h |}) (w_hits w)) items ws) /\
      is_kdst o = flat_map (fun it => match x_kdst it with Some l => l | None => [] end) items /\
      is_info o = map (fun it => (x_run it, x_event it, x_time it)) items /\ is_numbers o = map x_event items /\ is_in o = List.length items /\ is_out o = List.length items.
End Tables.
