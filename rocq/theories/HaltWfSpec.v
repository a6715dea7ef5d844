(** What C121 says of the tables of irene and hypathia *)
From Verif Require Import Base ConfigModel TablesModel PmapioModel FrunModel IsiModel HaltSpec.
Local Open Scope nat_scope.

(** the tables of PMAPS have grown by rows of the event [n] only *)
Definition pm_grown (n : Z) (before after : pm_tables) : Prop :=
  grown s_event n (t_s1 before) (t_s1 after) /\ grown s_event n (t_s2 before) (t_s2 after) /\ grown r_event n (t_si before) (t_si after) /\
  grown r_event n (t_s1pmt before) (t_s1pmt after) /\ grown r_event n (t_s2pmt before) (t_s2pmt after).
(** what an event that fails has added to the tables: rows of its own in the tables of the filters and of PMAPS. It is not in Run and Trigger, unless the channels
    of its trigger, the last that is written, are not as many as the sensors: then it is in Run, and has no channels *)
Definition ire_more {W L} (n_sensors : nat) (w : waveforms (Z * Q) W L Z (list Z)) (before after : irene_tables) : Prop :=
  grown fst (fst (w_event w)) (it_indices before) (it_indices after) /\ grown fst (fst (w_event w)) (it_peaks before) (it_peaks after) /\ pm_grown (fst (w_event w)) (it_pmaps before) (it_pmaps after) /\
  ((it_events after = it_events before /\ it_runs after = it_runs before /\ it_trigger after = it_trigger before) \/
   (it_events after = it_events before ++ [w_event w] /\ it_runs after = it_runs before ++ [w_run w] /\ trg_channels (it_trigger after) = trg_channels (it_trigger before) /\
    exists l, w_chn w = Some l /\ List.length l <> n_sensors)).
(** irene and hypathia write the trigger last, so that an event may be in Run without it *)
Definition ire_same (a b : irene_tables) : Prop :=
  it_indices b = it_indices a /\ it_peaks b = it_peaks a /\ it_pmaps b = it_pmaps a /\ it_events b = it_events a /\ it_runs b = it_runs a /\
  (exists l, trg_types (it_trigger a) = trg_types (it_trigger b) ++ l) /\ exists l, trg_channels (it_trigger a) = trg_channels (it_trigger b) ++ l.
(** at most one more *)
Definition one_more {A} (before after : list A) : Prop := exists l, after = before ++ l /\ List.length l <= 1.
Definition dio_more (w : mcrd_event) (before after : dio_tables) : Prop :=
  dt_events after = dt_events before /\ dt_runs after = dt_runs before /\ grown fst (fst (w_event w)) (dt_filter before) (dt_filter after) /\
  one_more (dt_rwf before) (dt_rwf after) /\ one_more (dt_blr before) (dt_blr after) /\ one_more (dt_sipm before) (dt_sipm after).
Definition dio_same (a b : dio_tables) : Prop :=
  dt_events b = dt_events a /\ dt_runs b = dt_runs a /\ dt_filter b = dt_filter a /\ dt_rwf b = dt_rwf a /\ dt_blr b = dt_blr a /\ dt_sipm b = dt_sipm a.
Definition isi_more (w : rwf_event) (before after : isi_tables) : Prop :=
  si_events after = si_events before /\ si_runs after = si_runs before /\ one_more (si_cwf before) (si_cwf after) /\ one_more (si_sipm before) (si_sipm after).
Definition isi_same (a b : isi_tables) : Prop := si_events b = si_events a /\ si_runs b = si_runs a /\ si_cwf b = si_cwf a /\ si_sipm b = si_sipm a.
