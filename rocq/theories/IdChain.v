(** C117: the identities of the events through several cities *)
From Coq Require Import String Qround.
From Verif Require ReadModel.
From Verif Require Import Base ConfigModel TablesModel PeaksModel BuffersModel PmapioModel FiltersModel XyModel HitsModel CorrModel EsmModel SophModel SoeModel.
From Verif Require Import KrModel PreadModel DorModel SrunModel ErunModel BeerModel BrunModel IsiModel HrunModel BfyModel FrunModel ErunChain.
From Verif Require DetModel.
From Verif Require Import IdSpec IdWf IdReco IdSim.
Local Open Scope nat_scope.

Lemma sub_flat {A B} (f g : A -> list B) l : (forall a, In a l -> subsequence (f a) (g a)) -> subsequence (flat_map f l) (flat_map g l).
Proof. induction l as [|a l IH]; intros H; [constructor|]. cbn [flat_map]. apply sub_app; [apply H; now left|]. apply IH. intros b Hb. apply H. now right. Qed.

(** irene and isidora over files of diomira: [sources p] are the input files of the run of diomira that wrote the file [p] *)
Theorem C117_diomira_irene event raw sources tables paths f32 step n o :
  (forall p, In p paths -> diomira event raw (sources p) = Ok (tables p)) -> irene f32 step n (fun p => diomira_file (tables p)) paths = Ok o ->
  subsequence (it_events o) (flat_map (fun p => wf_listed raw (sources p)) paths).
Proof.
  intros D H. apply C117_irene in H. destruct H as [H _]. eapply sub_trans; [exact H|]. unfold wf_listed at 1. apply sub_flat. intros p Hp. cbn [diomira_file h_events listed]. exact (proj1 (C117_diomira _ _ _ _ (D p Hp))).
Qed.
Theorem C117_diomira_isidora event raw sources tables paths butter sqrt pmts nb s o :
  (forall p, In p paths -> diomira event raw (sources p) = Ok (tables p)) -> isidora butter sqrt pmts nb s (fun p => diomira_file (tables p)) paths = Ok o ->
  subsequence (si_events o) (flat_map (fun p => wf_listed raw (sources p)) paths).
Proof.
  intros D H. apply C117_isidora in H. destruct H as [H _]. eapply sub_trans; [exact H|]. unfold wf_listed at 1. apply sub_flat. intros p Hp. cbn [diomira_file h_events listed]. exact (proj1 (C117_diomira _ _ _ _ (D p Hp))).
Qed.
(** dorothea, sophronia, esmeralda and beersheba over files of irene (or of hypathia, that has the same format) with the events [source] each *)
Section Pmaps.
  Context {I : Type}.
  Variables (runs : list I) (tables : I -> irene_tables) (source : I -> list (Z * Q)).
  Hypothesis written : forall i, In i runs -> subsequence (it_events (tables i)) (source i).
  Variables (xys : list (Q * Q)) (v : Q) (noise : list nat -> list Q -> Z -> list Q) (sw : Q -> Z) (ct : charge_type) (sqrt : Q -> Q) (atan : Q -> Q -> Q) (qthr : Q).
  Lemma irene_listed : subsequence (pm_listed (map (fun i => irene_output (tables i)) runs)) (flat_map source runs).
  Proof. unfold pm_listed. rewrite flat_map_concat_map, map_map, <- flat_map_concat_map. apply sub_flat. exact written. Qed.
  Theorem C117_irene_dorothea c o : dorothea xys v noise sw ct sqrt atan qthr c (map (fun i => irene_output (tables i)) runs) = Ok o -> subsequence (map event_time (do_info o)) (flat_map source runs).
  Proof. intros H. apply C117_dorothea in H. eapply sub_trans; [exact (proj1 H)|exact irene_listed]. Qed.
  Theorem C117_irene_sophronia nearest c rebin method qt sp corr o : sophronia nearest xys v noise sw ct sqrt atan qthr c rebin method qt sp corr (map (fun i => irene_output (tables i)) runs) = Ok o -> subsequence (map event_time (so_info o)) (flat_map source runs).
  Proof. intros H. apply C117_sophronia in H. eapply sub_trans; [exact (proj1 H)|exact irene_listed]. Qed.
End Pmaps.
Section Hits.
  Context {I : Type}.
  Variables (runs : list I) (tables : I -> sout) (source : I -> list (Z * Q)).
  Hypothesis written : forall i, In i runs -> subsequence (map event_time (so_info (tables i))) (source i).
  Lemma sophronia_listed : subsequence (hits_listed (map (fun i => sophronia_file (tables i)) runs)) (flat_map source runs).
  Proof. unfold hits_listed. rewrite flat_map_concat_map, map_map, <- flat_map_concat_map. apply sub_flat. exact written. Qed.
  Theorem C117_sophronia_esmeralda nearest others round5 paths norm m dvs method xy at_ az R th sp dims strict ethr minv blob scan maxh o :
    esmeralda KrModel.w_event nearest others round5 paths norm m dvs method xy at_ az R th sp dims strict ethr minv blob scan maxh (map (fun i => sophronia_file (tables i)) runs) = Ok o -> subsequence (map event_time (eo_info o)) (flat_map source runs).
  Proof. intros H. apply C117_esmeralda in H. eapply sub_trans; [exact (proj1 H)|exact sophronia_listed]. Qed.
  Theorem C117_sophronia_beersheba nearest deconvolution round6 m dvs method xy c n_dim sizes o :
    beersheba KrModel.w_event nearest deconvolution round6 m dvs method xy c n_dim sizes (map (fun i => sophronia_file (tables i)) runs) = Ok o -> subsequence (map event_time (br_info o)) (flat_map source runs).
  Proof. intros H. apply C117_beersheba in H. eapply sub_trans; [exact (proj1 H)|exact sophronia_listed]. Qed.
End Hits.
(** from raw waveforms to tracks: the events of the last file are some of those of the first, in order and with the same times *)
Theorem C117_chain event raw sources dio paths f32 step n o2 nearest xys v noise sw ct sqrt atan qthr c rebin method qt sp corr o3 others round5 tpaths norm m dvs nm xy at_ az R th sp' dims strict ethr minv blob scan maxh o4 :
  (forall p, In p paths -> diomira event raw (sources p) = Ok (dio p)) -> irene f32 step n (fun p => diomira_file (dio p)) paths = Ok o2 ->
  sophronia nearest xys v noise sw ct sqrt atan qthr c rebin method qt sp corr [irene_output o2] = Ok o3 ->
  esmeralda KrModel.w_event nearest others round5 tpaths norm m dvs nm xy at_ az R th sp' dims strict ethr minv blob scan maxh [sophronia_file o3] = Ok o4 ->
  subsequence (map event_time (eo_info o4)) (flat_map (fun p => wf_listed raw (sources p)) paths).
Proof.
  intros H1 H2 H3 H4. pose proof (C117_diomira_irene _ _ _ _ _ _ _ _ _ H1 H2) as S2.
  pose proof (C117_irene_sophronia [tt] (fun _ => o2) (fun _ => flat_map (fun p => wf_listed raw (sources p)) paths) (fun _ _ => S2) _ _ _ _ _ _ _ _ _ _ _ _ _ _ _ _ H3) as S3. cbn [flat_map] in S3. rewrite app_nil_r in S3.
  pose proof (C117_sophronia_esmeralda [tt] (fun _ => o3) (fun _ => flat_map (fun p => wf_listed raw (sources p)) paths) (fun _ _ => S3) _ _ _ _ _ _ _ _ _ _ _ _ _ _ _ _ _ _ _ _ _ _ H4) as S4. cbn [flat_map] in S4. now rewrite app_nil_r in S4.
Qed.
(** from a simulation: the number of each event of hypathia tells the simulated event it comes from *)
Lemma from_rows n numbers rows (l : list (Z * Q)) : subsequence l (map (fun r => (br_event r, inject_Z (br_time r))) rows) -> Forall (trigger_of n numbers) rows -> Forall (fun e => exists k i, In k numbers /\ (0 <= i)%Z /\ fst e = (k * n + i)%Z) l.
Proof.
  intros S F. apply Forall_forall. intros e He. apply (sub_in _ _ S) in He. apply in_map_iff in He. destruct He as (r & <- & Hr). rewrite Forall_forall in F. destruct (F r Hr) as (I & i & J & E). exists (br_nexus r), i. auto.
Qed.
Theorem C117_buffy_hypathia float unit is_pmt_name pmt_db sipm_db mus b rate draw files o run name f32 rn pmts sipms p wl nss o2 :
  buffy_run float unit is_pmt_name pmt_db sipm_db mus b rate draw files = Ok (Some o) -> hypathia f32 rn pmts sipms p wl nss (fun _ => buffy_file run o) [name] = Ok o2 ->
  exists mt, check_max_time mus (cf_max b) (cf_buffer b) = Ok mt /\
    Forall (fun e => exists nexus i, In nexus (flat_map nf_events files) /\ (0 <= i)%Z /\ fst e = (nexus * Qceiling (mt / cf_buffer b) + i)%Z) (it_events o2).
Proof.
  intros H1 H2. apply C117_buffy in H1. destruct H1 as (S1 & (mt & Mt & T) & _). apply C117_hypathia in H2. destruct H2 as [S2 _]. exists mt. split; [exact Mt|]. unfold wf_listed in S2. cbn [flat_map buffy_file h_events listed] in S2. rewrite app_nil_r in S2.
  pose proof (from_rows _ _ _ _ S2 T) as F. eapply Forall_impl; [|exact F]. intros e (k & i & I & J & E). exists k, i. split; [now apply (sub_in _ _ S1)|auto].
Qed.
Theorem C117_detsim_hypathia sqrtQ emitted s1_lt s1_sensors ph lt_pmt lt_sipm ACTIVE BUFFER pmt_db sipm_db dn mus b pw sw rate draw files o run name f32 rn pmts sipms p wl nss o2 :
  DetModel.detsim_run sqrtQ emitted s1_lt s1_sensors ph lt_pmt lt_sipm ACTIVE BUFFER pmt_db sipm_db dn mus b pw sw rate draw files = Ok o -> hypathia f32 rn pmts sipms p wl nss (fun _ => DetModel.detsim_file run o) [name] = Ok o2 ->
  exists mt, check_max_time mus (cf_max b) (cf_buffer b) = Ok mt /\
    Forall (fun e => exists f hits h i, In f files /\ DetModel.hf_hits f = Some hits /\ In h hits /\ (0 <= i)%Z /\ fst e = (fst h * Qceiling (mt / cf_buffer b) + i)%Z) (it_events o2).
Proof.
  intros H1 H2. apply C117_detsim in H1. destruct H1 as (S1 & (mt & Mt & T) & _). apply C117_hypathia in H2. destruct H2 as [S2 _]. exists mt. split; [exact Mt|]. unfold wf_listed in S2. cbn [flat_map DetModel.detsim_file buffy_file h_events listed bt_rows] in S2. rewrite app_nil_r in S2.
  pose proof (from_rows _ _ _ _ S2 T) as F. eapply Forall_impl; [|exact F]. intros e (k & i & I & J & E). destruct (S1 k I) as (f & hits & h & A & B & C & <-). exists f, hits, h, i. auto.
Qed.
Print Assumptions C117_diomira_irene.
Print Assumptions C117_diomira_isidora.
Print Assumptions C117_irene_dorothea.
Print Assumptions C117_irene_sophronia.
Print Assumptions C117_sophronia_esmeralda.
Print Assumptions C117_sophronia_beersheba.
Print Assumptions C117_chain.
Print Assumptions C117_buffy_hypathia.
Print Assumptions C117_detsim_hypathia.
