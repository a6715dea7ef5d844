(** C118: a run over the files of two lists, one after the other, or over a range of events cut in two, writes the tables of the two jobs, one after the other, and counts the
    events of both; it fails with the error of the first of them that fails *)
From Coq Require Import String.
From Verif Require Import Base ConfigModel TablesModel PeaksModel BuffersModel.
From Verif Require Import ReadModel.
From Verif Require IreneModel.
From Verif Require Import PmapioModel FiltersModel XyModel HitsModel CorrModel EsmModel SophModel SoeModel KrModel PreadModel DorModel SrunModel.
From Verif Require Import PaolinaModel TopoModel ErunModel BeerModel BrunModel IsaModel FrunModel HrunModel IsiModel JobModel JobSpec JobProofs.
Local Open Scope nat_scope.

(** the range is cut at [b] *)
Local Notation cut a b c := (a <= b /\ match c with None => True | Some c' => b < c' end).

Theorem C118_dorothea_files : forall xys v noise sw ct sqrt atan qthr c files1 files2,
  dorothea xys v noise sw ct sqrt atan qthr c (files1 ++ files2) = then_job join_dorothea (dorothea xys v noise sw ct sqrt atan qthr c (files1)) (fun _ => dorothea xys v noise sw ct sqrt atan qthr c (files2)).
Proof.
  intros. unfold dorothea.   destruct (mk_selector c) as [s|]; [|reflexivity]. cbn [rbind]. unfold pmap_from_files. rewrite over_app.
  exact (dor_jobs xys v noise sw ct sqrt atan qthr s tt _ _).
Qed.
Print Assumptions C118_dorothea_files.
Theorem C118_dorothea_range : forall xys v noise sw ct sqrt atan qthr c a b c0 files, cut a b c0 ->
  dorothea_range xys v noise sw ct sqrt atan qthr (a, c0) c files = then_job join_dorothea (dorothea_range xys v noise sw ct sqrt atan qthr (a, Some b) c files) (fun _ => dorothea_range xys v noise sw ct sqrt atan qthr (b, c0) c files).
Proof.
  intros xys v noise sw ct sqrt atan qthr c a b c0 files [H1 H2]. unfold dorothea_range.   destruct (mk_selector c) as [s|]; [|reflexivity]. cbn [rbind]. rewrite (ranged_app _ a b c0 H1 H2).
  exact (dor_jobs xys v noise sw ct sqrt atan qthr s tt _ _).
Qed.
Print Assumptions C118_dorothea_range.
Theorem C118_dorothea_whole : forall xys v noise sw ct sqrt atan qthr c files, dorothea_range xys v noise sw ct sqrt atan qthr (0, None) c files = dorothea xys v noise sw ct sqrt atan qthr c (files).
Proof. intros. unfold dorothea_range, dorothea.   destruct (mk_selector c) as [s|]; [|reflexivity]. cbn [rbind]. rewrite ranged_all. reflexivity. Qed.
Print Assumptions C118_dorothea_whole.

Theorem C118_sophronia_files : forall nearest xys v noise sw ct sqrt atan qthr c rebin method q_thr same_peak corr files1 files2,
  sophronia nearest xys v noise sw ct sqrt atan qthr c rebin method q_thr same_peak corr (files1 ++ files2) = then_job join_sophronia (sophronia nearest xys v noise sw ct sqrt atan qthr c rebin method q_thr same_peak corr (files1)) (fun _ => sophronia nearest xys v noise sw ct sqrt atan qthr c rebin method q_thr same_peak corr (files2)).
Proof.
  intros. unfold sophronia.   destruct (mk_selector c) as [s|]; [|reflexivity]. cbn [rbind]. unfold pmap_from_files. rewrite over_app.
  exact (soph_jobs nearest xys v noise sw ct sqrt atan qthr s rebin method q_thr same_peak corr tt _ _).
Qed.
Print Assumptions C118_sophronia_files.
Theorem C118_sophronia_range : forall nearest xys v noise sw ct sqrt atan qthr c rebin method q_thr same_peak corr a b c0 files, cut a b c0 ->
  sophronia_range nearest xys v noise sw ct sqrt atan qthr (a, c0) c rebin method q_thr same_peak corr files = then_job join_sophronia (sophronia_range nearest xys v noise sw ct sqrt atan qthr (a, Some b) c rebin method q_thr same_peak corr files) (fun _ => sophronia_range nearest xys v noise sw ct sqrt atan qthr (b, c0) c rebin method q_thr same_peak corr files).
Proof.
  intros nearest xys v noise sw ct sqrt atan qthr c rebin method q_thr same_peak corr a b c0 files [H1 H2]. unfold sophronia_range.   destruct (mk_selector c) as [s|]; [|reflexivity]. cbn [rbind]. rewrite (ranged_app _ a b c0 H1 H2).
  exact (soph_jobs nearest xys v noise sw ct sqrt atan qthr s rebin method q_thr same_peak corr tt _ _).
Qed.
Print Assumptions C118_sophronia_range.
Theorem C118_sophronia_whole : forall nearest xys v noise sw ct sqrt atan qthr c rebin method q_thr same_peak corr files, sophronia_range nearest xys v noise sw ct sqrt atan qthr (0, None) c rebin method q_thr same_peak corr files = sophronia nearest xys v noise sw ct sqrt atan qthr c rebin method q_thr same_peak corr (files).
Proof. intros. unfold sophronia_range, sophronia.   destruct (mk_selector c) as [s|]; [|reflexivity]. cbn [rbind]. rewrite ranged_all. reflexivity. Qed.
Print Assumptions C118_sophronia_whole.

Theorem C118_esmeralda_files {K} : forall (kdst_event : K -> Z) nearest others round5 paths norm m dvs method xy apply_temp apply_z radius th same_peak vox_size strict ethr minv blob scan maxh files1 files2,
  esmeralda kdst_event nearest others round5 paths norm m dvs method xy apply_temp apply_z radius th same_peak vox_size strict ethr minv blob scan maxh (files1 ++ files2) = then_job join_esmeralda (esmeralda kdst_event nearest others round5 paths norm m dvs method xy apply_temp apply_z radius th same_peak vox_size strict ethr minv blob scan maxh (files1)) (fun _ => esmeralda kdst_event nearest others round5 paths norm m dvs method xy apply_temp apply_z radius th same_peak vox_size strict ethr minv blob scan maxh (files2)).
Proof.
  intros. unfold esmeralda. unfold hits_and_kdst_from_files. rewrite over_app.
  exact (esm_jobs nearest others round5 paths norm m dvs method xy apply_temp apply_z radius th same_peak vox_size strict ethr minv blob scan maxh tt _ _).
Qed.
Print Assumptions C118_esmeralda_files.
Theorem C118_esmeralda_range {K} : forall (kdst_event : K -> Z) nearest others round5 paths norm m dvs method xy apply_temp apply_z radius th same_peak vox_size strict ethr minv blob scan maxh a b c0 files, cut a b c0 ->
  esmeralda_range kdst_event nearest others round5 paths norm m dvs method xy apply_temp apply_z radius th same_peak vox_size strict ethr minv blob scan maxh (a, c0) files = then_job join_esmeralda (esmeralda_range kdst_event nearest others round5 paths norm m dvs method xy apply_temp apply_z radius th same_peak vox_size strict ethr minv blob scan maxh (a, Some b) files) (fun _ => esmeralda_range kdst_event nearest others round5 paths norm m dvs method xy apply_temp apply_z radius th same_peak vox_size strict ethr minv blob scan maxh (b, c0) files).
Proof.
  intros kdst_event nearest others round5 paths norm m dvs method xy apply_temp apply_z radius th same_peak vox_size strict ethr minv blob scan maxh a b c0 files [H1 H2]. unfold esmeralda_range. rewrite (ranged_app _ a b c0 H1 H2).
  exact (esm_jobs nearest others round5 paths norm m dvs method xy apply_temp apply_z radius th same_peak vox_size strict ethr minv blob scan maxh tt _ _).
Qed.
Print Assumptions C118_esmeralda_range.
Theorem C118_esmeralda_whole {K} : forall (kdst_event : K -> Z) nearest others round5 paths norm m dvs method xy apply_temp apply_z radius th same_peak vox_size strict ethr minv blob scan maxh files, esmeralda_range kdst_event nearest others round5 paths norm m dvs method xy apply_temp apply_z radius th same_peak vox_size strict ethr minv blob scan maxh (0, None) files = esmeralda kdst_event nearest others round5 paths norm m dvs method xy apply_temp apply_z radius th same_peak vox_size strict ethr minv blob scan maxh (files).
Proof. intros. unfold esmeralda_range, esmeralda. rewrite ranged_all. reflexivity. Qed.
Print Assumptions C118_esmeralda_whole.

Theorem C118_beersheba_files {K} : forall (kdst_event : K -> Z) nearest deconvolution round6 m dvs method xy c n_dim sizes files1 files2,
  beersheba kdst_event nearest deconvolution round6 m dvs method xy c n_dim sizes (files1 ++ files2) = then_job join_beersheba (beersheba kdst_event nearest deconvolution round6 m dvs method xy c n_dim sizes (files1)) (fun _ => beersheba kdst_event nearest deconvolution round6 m dvs method xy c n_dim sizes (files2)).
Proof.
  intros. unfold beersheba.   destruct (check_configuration _ _ _ _) as [s|]; [|reflexivity]. cbn [rbind]. unfold hits_and_kdst_from_files. rewrite over_app.
  exact (beer_jobs nearest deconvolution round6 m dvs method xy c tt _ _).
Qed.
Print Assumptions C118_beersheba_files.
Theorem C118_beersheba_range {K} : forall (kdst_event : K -> Z) nearest deconvolution round6 m dvs method xy c n_dim sizes a b c0 files, cut a b c0 ->
  beersheba_range kdst_event nearest deconvolution round6 m dvs method xy c (a, c0) n_dim sizes files = then_job join_beersheba (beersheba_range kdst_event nearest deconvolution round6 m dvs method xy c (a, Some b) n_dim sizes files) (fun _ => beersheba_range kdst_event nearest deconvolution round6 m dvs method xy c (b, c0) n_dim sizes files).
Proof.
  intros kdst_event nearest deconvolution round6 m dvs method xy c n_dim sizes a b c0 files [H1 H2]. unfold beersheba_range.   destruct (check_configuration _ _ _ _) as [s|]; [|reflexivity]. cbn [rbind]. rewrite (ranged_app _ a b c0 H1 H2).
  exact (beer_jobs nearest deconvolution round6 m dvs method xy c tt _ _).
Qed.
Print Assumptions C118_beersheba_range.
Theorem C118_beersheba_whole {K} : forall (kdst_event : K -> Z) nearest deconvolution round6 m dvs method xy c n_dim sizes files, beersheba_range kdst_event nearest deconvolution round6 m dvs method xy c (0, None) n_dim sizes files = beersheba kdst_event nearest deconvolution round6 m dvs method xy c n_dim sizes (files).
Proof. intros. unfold beersheba_range, beersheba.   destruct (check_configuration _ _ _ _) as [s|]; [|reflexivity]. cbn [rbind]. rewrite ranged_all. reflexivity. Qed.
Print Assumptions C118_beersheba_whole.

Theorem C118_isaura_files {K} : forall (kdst_event : K -> Z) others round5 paths norm vox_size strict ethr minv blob scan maxh files1 files2,
  isaura kdst_event others round5 paths norm vox_size strict ethr minv blob scan maxh (files1 ++ files2) = then_job join_isaura (isaura kdst_event others round5 paths norm vox_size strict ethr minv blob scan maxh (files1)) (fun _ => isaura kdst_event others round5 paths norm vox_size strict ethr minv blob scan maxh (files2)).
Proof.
  intros. unfold isaura. unfold deco_from_files. rewrite over_app.
  exact (isa_jobs others round5 paths norm vox_size strict ethr minv blob scan maxh tt _ _).
Qed.
Print Assumptions C118_isaura_files.
Theorem C118_isaura_range {K} : forall (kdst_event : K -> Z) others round5 paths norm vox_size strict ethr minv blob scan maxh a b c0 files, cut a b c0 ->
  isaura_range kdst_event others round5 paths norm vox_size strict ethr minv blob scan maxh (a, c0) files = then_job join_isaura (isaura_range kdst_event others round5 paths norm vox_size strict ethr minv blob scan maxh (a, Some b) files) (fun _ => isaura_range kdst_event others round5 paths norm vox_size strict ethr minv blob scan maxh (b, c0) files).
Proof.
  intros kdst_event others round5 paths norm vox_size strict ethr minv blob scan maxh a b c0 files [H1 H2]. unfold isaura_range. rewrite (ranged_app _ a b c0 H1 H2).
  exact (isa_jobs others round5 paths norm vox_size strict ethr minv blob scan maxh tt _ _).
Qed.
Print Assumptions C118_isaura_range.
Theorem C118_isaura_whole {K} : forall (kdst_event : K -> Z) others round5 paths norm vox_size strict ethr minv blob scan maxh files, isaura_range kdst_event others round5 paths norm vox_size strict ethr minv blob scan maxh (0, None) files = isaura kdst_event others round5 paths norm vox_size strict ethr minv blob scan maxh (files).
Proof. intros. unfold isaura_range, isaura. rewrite ranged_all. reflexivity. Qed.
Print Assumptions C118_isaura_whole.

Theorem C118_isidora_files : forall butter sqrt pmts n_baseline s open_file files1 files2,
  isidora butter sqrt pmts n_baseline s open_file (files1 ++ files2) = then_job join_isidora (isidora butter sqrt pmts n_baseline s open_file (files1)) (fun _ => isidora butter sqrt pmts n_baseline s open_file (files2)).
Proof.
  intros. unfold isidora. rewrite wf_app.
  exact (isi_jobs butter sqrt pmts n_baseline s tt _ _).
Qed.
Print Assumptions C118_isidora_files.
Theorem C118_isidora_range : forall butter sqrt pmts n_baseline s open_file a b c0 files, cut a b c0 ->
  isidora_range butter sqrt pmts n_baseline s (a, c0) open_file files = then_job join_isidora (isidora_range butter sqrt pmts n_baseline s (a, Some b) open_file files) (fun _ => isidora_range butter sqrt pmts n_baseline s (b, c0) open_file files).
Proof.
  intros butter sqrt pmts n_baseline s open_file a b c0 files [H1 H2]. unfold isidora_range. rewrite (ranged_app _ a b c0 H1 H2).
  exact (isi_jobs butter sqrt pmts n_baseline s tt _ _).
Qed.
Print Assumptions C118_isidora_range.
Theorem C118_isidora_whole : forall butter sqrt pmts n_baseline s open_file files, isidora_range butter sqrt pmts n_baseline s (0, None) open_file files = isidora butter sqrt pmts n_baseline s open_file (files).
Proof. intros. unfold isidora_range, isidora. rewrite ranged_all. reflexivity. Qed.
Print Assumptions C118_isidora_whole.

Theorem C118_irene_files : forall f32 step n_sensors open_file files1 files2,
  irene f32 step n_sensors open_file (files1 ++ files2) = then_job join_irene (irene f32 step n_sensors open_file (files1)) (fun _ => irene f32 step n_sensors open_file (files2)).
Proof.
  intros. unfold irene, pmaps_of_files. rewrite wf_app.
  exact (pm_jobs f32 n_sensors (fun _ => step) _ _).
Qed.
Print Assumptions C118_irene_files.
Theorem C118_irene_range : forall f32 step n_sensors open_file a b c0 files, cut a b c0 ->
  irene_range f32 step n_sensors (a, c0) open_file files = then_job join_irene (irene_range f32 step n_sensors (a, Some b) open_file files) (fun _ => irene_range f32 step n_sensors (b, c0) open_file files).
Proof.
  intros f32 step n_sensors open_file a b c0 files [H1 H2]. unfold irene_range, pmaps_range. rewrite (ranged_app _ a b c0 H1 H2).
  exact (pm_jobs f32 n_sensors (fun _ => step) _ _).
Qed.
Print Assumptions C118_irene_range.
Theorem C118_irene_whole : forall f32 step n_sensors open_file files, irene_range f32 step n_sensors (0, None) open_file files = irene f32 step n_sensors open_file (files).
Proof. intros. unfold irene_range, pmaps_range, irene, pmaps_of_files. rewrite ranged_all. reflexivity. Qed.
Print Assumptions C118_irene_whole.

Theorem C118_diomira_files : forall event open_file files1 files2,
  diomira event open_file (files1 ++ files2) = then_job join_diomira (diomira event open_file (files1)) (fun o => diomira (fun i => event (dt_in o + i)) open_file (files2)).
Proof.
  intros. unfold diomira. rewrite wf_app.
  exact (dio_jobs event _ _).
Qed.
Print Assumptions C118_diomira_files.
Theorem C118_diomira_range : forall event open_file a b c0 files, cut a b c0 ->
  diomira_range event (a, c0) open_file files = then_job join_diomira (diomira_range event (a, Some b) open_file files) (fun o => diomira_range (fun i => event (dt_in o + i)) (b, c0) open_file files).
Proof.
  intros event open_file a b c0 files [H1 H2]. unfold diomira_range. rewrite (ranged_app _ a b c0 H1 H2).
  exact (dio_jobs event _ _).
Qed.
Print Assumptions C118_diomira_range.
Theorem C118_diomira_whole : forall event open_file files, diomira_range event (0, None) open_file files = diomira event open_file (files).
Proof. intros. unfold diomira_range, diomira. rewrite ranged_all. reflexivity. Qed.
Print Assumptions C118_diomira_whole.

Theorem C118_hypathia_files : forall f32 rn pmts sipms p wl nss open_file files1 files2,
  hypathia f32 rn pmts sipms p wl nss open_file (files1 ++ files2) = then_job join_irene (hypathia f32 rn pmts sipms p wl nss open_file (files1)) (fun o => hypathia f32 (fun i => rn (it_in o + i)) pmts sipms p wl nss open_file (files2)).
Proof.
  intros. unfold hypathia, pmaps_of_files. rewrite wf_app.
  exact (pm_jobs f32 (List.length pmts) (step_of rn pmts sipms p wl nss) _ _).
Qed.
Print Assumptions C118_hypathia_files.
Theorem C118_hypathia_range : forall f32 rn pmts sipms p wl nss open_file a b c0 files, cut a b c0 ->
  hypathia_range f32 rn pmts sipms p wl nss (a, c0) open_file files = then_job join_irene (hypathia_range f32 rn pmts sipms p wl nss (a, Some b) open_file files) (fun o => hypathia_range f32 (fun i => rn (it_in o + i)) pmts sipms p wl nss (b, c0) open_file files).
Proof.
  intros f32 rn pmts sipms p wl nss open_file a b c0 files [H1 H2]. unfold hypathia_range, pmaps_range. rewrite (ranged_app _ a b c0 H1 H2).
  exact (pm_jobs f32 (List.length pmts) (step_of rn pmts sipms p wl nss) _ _).
Qed.
Print Assumptions C118_hypathia_range.
Theorem C118_hypathia_whole : forall f32 rn pmts sipms p wl nss open_file files, hypathia_range f32 rn pmts sipms p wl nss (0, None) open_file files = hypathia f32 rn pmts sipms p wl nss open_file (files).
Proof. intros. unfold hypathia_range, pmaps_range, hypathia, pmaps_of_files. rewrite ranged_all. reflexivity. Qed.
Print Assumptions C118_hypathia_whole.

