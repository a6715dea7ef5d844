(** Vocabulary for C111 *)
From Verif Require Import Base ConfigModel TablesModel PeaksModel PeaksSpec CalibModel CalibSpec IreneModel IreneSpec PmapioModel PmapioSpec HypaModel HypaSpec FrunModel HrunModel.
Local Open Scope nat_scope.

(** the waveforms of the PMTs, that follow from the light of each *)
Definition pmts_simulated (pmts : list pmt_row) (p : hparams) (rn : hyp_randoms) (w : mcrd_event) (ccs : list (list Q)) : Prop :=
  List.length ccs = List.length pmts /\
  forall s l, nth_error (w_pmt w) s = Some l -> exists cc, nth_error ccs s = Some cc /\ pmt_light (hr_pmt rn s) (h_rebin p) (h_rms p) l cc.
(** the digitised waveforms of the SiPMs, that follow from the light and the noise of each *)
Definition sipms_simulated (sipms : list sim_row) (p : hparams) (rn : hyp_randoms) (w : mcrd_event) (rs : list (list Z)) : Prop :=
  List.length rs = List.length sipms /\
  forall s d n l, nth_error sipms s = Some d -> nth_error (hr_noise rn) s = Some n -> nth_error (w_sipm w) s = Some l ->
    exists z, nth_error rs s = Some z /\ sipm_response (hr_sipm rn s) d (h_noise_cut p) (h_padding p) n l z.
(** the samples of the sum of the PMTs above the thresholds of S1 and S2 *)
Definition light_above (p : hparams) (ns : nat) (ccs : list (list Q)) (i1 i2 : list nat) : Prop :=
  samples_above ns (light_sum ccs) (thr_csum_s1 (h_pmap p)) i1 /\ samples_above ns (light_sum ccs) (thr_csum_s2 (h_pmap p)) i2.

(** [pm] is what hypathia builds from the light of the event [w] with the random numbers [rn]: nothing if the sum of the PMTs has no sample above one of the
    thresholds, and otherwise the peaks, that are the groups of such samples that qualify *)
Definition right_light (pmts : list pmt_row) (sipms : list sim_row) (p : hparams) (ns r m : nat) (rn : hyp_randoms) (w : mcrd_event) (pm : option pmap) : Prop :=
  exists ccs rs css i1 i2,
    pmts_simulated pmts p rn w ccs /\ sipms_simulated sipms p rn w rs /\ Forall2 (fun x cs => own_sipm (snd x) cs) (sipms_in_use (map ss_row sipms) rs) css /\ light_above p ns ccs i1 i2 /\
    let q := h_pmap p in
    let cc := {| cols := ns; rows := ccs |} in
    let ids := map pm_id pmts in
    match pm with
    | None => i1 = [] \/ i2 = []
    | Some pm => i1 <> [] /\ i2 <> [] /\
        peaks_of (s1_params q) (pmt_wid q) i1 (s1_of cc (pmt_wid q) (k_rebin (s1_params q)) ids) (s1s pm) /\
        peaks_of (s2_params q) (pmt_wid q) i2 (s2_of cc (pmt_wid q) ids (cut q) (sipms_in_use (map ss_row sipms) rs) css r m) (s2s pm)
    end.
(** an event with arrays of the shapes of the database and counts of 16 bits *)
Definition good_event_light (pmts : list pmt_row) (sipms : list sim_row) (p : hparams) (wl ns nss r m : nat) (rn : hyp_randoms) (w : mcrd_event) : Prop :=
  good_light pmts sipms p ns nss {| cols := wl; rows := w_pmt w |} (w_sipm w) (hr_noise rn) r m /\ counts_fit (hr_sipm rn) sipms (w_sipm w) (hr_noise rn).
