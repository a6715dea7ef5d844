(** What C118 says: the tables of one job followed by those of another, and the counts added *)
From Verif Require Import Base PeaksModel BuffersModel.
From Verif Require Import TablesModel PmapioModel KrModel DorModel SrunModel ErunModel BrunModel IsaModel FrunModel IsiModel.
Local Open Scope nat_scope.

Definition join_dorothea (a b : dout) : dout :=
  {| do_filter := do_filter a ++ do_filter b; do_rows := do_rows a ++ do_rows b; do_info := do_info a ++ do_info b; do_numbers := do_numbers a ++ do_numbers b;
     do_in := do_in a + do_in b; do_out := do_out a + do_out b; do_passed := do_passed a + do_passed b; do_failed := do_failed a + do_failed b |}.
Definition join_sophronia (a b : sout) : sout :=
  {| so_filter := so_filter a ++ so_filter b; so_valid := so_valid a ++ so_valid b; so_rows := so_rows a ++ so_rows b; so_hits := so_hits a ++ so_hits b; so_info := so_info a ++ so_info b; so_numbers := so_numbers a ++ so_numbers b;
     so_in := so_in a + so_in b; so_out := so_out a + so_out b; so_passed := so_passed a + so_passed b; so_failed := so_failed a + so_failed b |}.
Definition join_esmeralda {K} (a b : eout K) : eout K :=
  {| eo_select := eo_select a ++ eo_select b; eo_topology := eo_topology a ++ eo_topology b; eo_summary := eo_summary a ++ eo_summary b; eo_hits := eo_hits a ++ eo_hits b; eo_tracks := eo_tracks a ++ eo_tracks b;
     eo_kdst := eo_kdst a ++ eo_kdst b; eo_info := eo_info a ++ eo_info b; eo_numbers := eo_numbers a ++ eo_numbers b; eo_in := eo_in a + eo_in b; eo_out := eo_out a + eo_out b |}.
Definition join_beersheba {K} (a b : bout K) : bout K :=
  {| br_hits := br_hits a ++ br_hits b; br_filter := br_filter a ++ br_filter b; br_deco := br_deco a ++ br_deco b; br_kdst := br_kdst a ++ br_kdst b; br_info := br_info a ++ br_info b; br_numbers := br_numbers a ++ br_numbers b;
     br_in := br_in a + br_in b; br_out := br_out a + br_out b; br_passed := br_passed a + br_passed b; br_failed := br_failed a + br_failed b |}.
Definition join_isaura {K} (a b : isaout K) : isaout K :=
  {| is_select := is_select a ++ is_select b; is_topology := is_topology a ++ is_topology b; is_summary := is_summary a ++ is_summary b; is_hits := is_hits a ++ is_hits b; is_tracks := is_tracks a ++ is_tracks b;
     is_kdst := is_kdst a ++ is_kdst b; is_info := is_info a ++ is_info b; is_numbers := is_numbers a ++ is_numbers b; is_in := is_in a + is_in b; is_out := is_out a + is_out b |}.
Definition join_isidora (a b : isi_tables) : isi_tables :=
  {| si_cwf := si_cwf a ++ si_cwf b; si_sipm := si_sipm a ++ si_sipm b; si_runs := si_runs a ++ si_runs b; si_events := si_events a ++ si_events b; si_numbers := si_numbers a ++ si_numbers b; si_in := si_in a + si_in b |}.
Definition join_diomira (a b : dio_tables) : dio_tables :=
  {| dt_filter := dt_filter a ++ dt_filter b; dt_runs := dt_runs a ++ dt_runs b; dt_events := dt_events a ++ dt_events b; dt_rwf := dt_rwf a ++ dt_rwf b; dt_blr := dt_blr a ++ dt_blr b; dt_sipm := dt_sipm a ++ dt_sipm b;
     dt_numbers := dt_numbers a ++ dt_numbers b; dt_in := dt_in a + dt_in b; dt_passed := dt_passed a + dt_passed b |}.
Definition join_tables (a b : pm_tables) : pm_tables :=
  {| t_s1 := t_s1 a ++ t_s1 b; t_s2 := t_s2 a ++ t_s2 b; t_si := t_si a ++ t_si b; t_s1pmt := t_s1pmt a ++ t_s1pmt b; t_s2pmt := t_s2pmt a ++ t_s2pmt b |}.
Definition join_trigger (a b : trigger_tables) : trigger_tables := {| trg_types := trg_types a ++ trg_types b; trg_channels := trg_channels a ++ trg_channels b |}.
Definition join_irene (a b : irene_tables) : irene_tables :=
  {| it_pmaps := join_tables (it_pmaps a) (it_pmaps b); it_indices := it_indices a ++ it_indices b; it_peaks := it_peaks a ++ it_peaks b; it_runs := it_runs a ++ it_runs b; it_events := it_events a ++ it_events b;
     it_trigger := join_trigger (it_trigger a) (it_trigger b); it_numbers := it_numbers a ++ it_numbers b; it_in := it_in a + it_in b; it_out := it_out a + it_out b |}.
(** the result of a job that comes after another: both end, or the error is that of the first one that fails *)
Definition then_job {O} (join : O -> O -> O) (first : result O) (second : O -> result O) : result O :=
  match first with Err e => Err e | Ok a => match second a with Err e => Err e | Ok b => Ok (join a b) end end.
