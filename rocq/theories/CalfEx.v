(** A case of C124: berenice over two files, and over a third one of which the tables do not match *)
From Coq Require Import String.
From Verif Require Import Base ConfigModel TablesModel PeaksModel CalibModel BuffersModel HistModel IreneModel CalcModel.
From Verif Require Import FrunModel IsiModel JobModel HaltBase CalfModel CalfSpec CalfProofs CalfProps.
Local Open Scope nat_scope.

Definition ex_rwf (sipm : list (list (list Z))) (events : list (Z * Q)) : rwf_file :=
  {| h_events := Some events; h_run := Some [7%Z]; h_pmt := Some (map (fun _ => []) sipm); h_sipm := Some sipm; h_trg := None; h_chn := None |}.
Definition ex_open (p : string) : rwf_file :=
  if String.eqb p "one" then ex_rwf [[[5; 5; 6]; [3; 3; 3]]; [[5; 7; 5]; [4; 3; 3]]]%Z [(1%Z, 10); (2%Z, 20)]%Q
  else if String.eqb p "two" then ex_rwf [[[5; 5; 6]; [3; 4; 3]]]%Z [(3%Z, 30)]%Q
  else ex_rwf [[[5; 5; 6]; [3; 4; 3]]]%Z [].
Definition ex_sensors (p : string) : option nat := Some (String.length p).
Definition ex_bins : bins_conf := {| bc_min := -(1#2); bc_max := 3; bc_width := 1 |}.
Definition ex_shapes : shapes := {| n_pmt := 0; pmt_wl := 0; n_sipm := 2; sipm_wl := 3 |}.
Definition ex_setup : setup := match berenice_setup [1; 2]%Q ex_bins ex_shapes with Ok su => su | Err _ => {| su_names := []; su_sensors := 0; su_edges := []; su_branches := [] |} end.
Example C124_ex : calibration_setup ex_setup /\
  (exists f1 f2 f, ends_with (calibration_run ex_setup ex_sensors ex_open (0, None) ["one"; "two"]%string) no_calf f /\
    ends_with (calibration_run ex_setup ex_sensors ex_open (0, None) ["one"]%string) no_calf f1 /\ ends_with (calibration_run ex_setup ex_sensors ex_open (0, None) ["two"]%string) no_calf f2 /\ summed f1 f2 f /\
    nth_error (cf_spectra f1) 0 = Some ("adc"%string, [[[4; 1; 1]; [5; 1; 0]]]) /\ nth_error (cf_spectra f) 0 = Some ("adc"%string, [[[6; 2; 1]; [7; 2; 0]]]) /\ map fst (cf_events f) = [1; 2; 3]%Z) /\
  (exists f, fails_with (calibration_run ex_setup ex_sensors ex_open (0, None) ["one"; "bad"]%string) no_calf f InvalidInputFileStructure /\ cf_spectra f = [] /\ cf_runs f = [7; 7]%Z).
Proof.
  assert (Hs : calibration_setup ex_setup) by (right; right; exists [1; 2]%Q, ex_bins, ex_shapes; reflexivity). split; [exact Hs|]. split.
  - destruct (calibration_run ex_setup ex_sensors ex_open (0, None) ["one"; "two"]%string no_calf) as [f r] eqn:E. assert (Er : r = Ok tt) by (apply (f_equal snd) in E; cbn [snd] in E; rewrite <- E; vm_compute; reflexivity). subst r.
    destruct (proj1 (C124_jobs nat ex_setup ex_sensors ex_open ["one"]%string ["two"]%string Hs ltac:(discriminate) ltac:(discriminate) f) E) as (f1 & f2 & E1 & E2 & Su). exists f1, f2, f. split; [exact E|]. split; [exact E1|]. split; [exact E2|]. split; [exact Su|].
    apply (f_equal fst) in E. apply (f_equal fst) in E1. cbn [fst] in E, E1. rewrite <- E, <- E1. vm_compute. auto.
  - eexists. split; [vm_compute; reflexivity|]. split; reflexivity.
Qed.
