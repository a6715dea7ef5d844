(** C111: a run of hypathia over files *)
From Coq Require Import String Lia NArith.
From Verif Require ReadModel.
From Verif Require Import Base ConfigModel ConfigSpec ConfigProps TablesModel.
From Verif Require Import PeaksModel PeaksSpec CalibModel CalibSpec IreneModel IreneSpec IreneProps PmapioModel PmapioSpec HypaModel HypaSpec HypaProps IrunProps PreadModel PreadProps FrunModel FrunSpec FrunProps HrunModel HrunSpec.
Local Open Scope nat_scope.

Section Run.
  Variables (f32 : Q -> Q) (rn : nat -> hyp_randoms) (pmts : list pmt_row) (sipms : list sim_row) (p : hparams) (wl ns nss r m : nat).

  Lemma light_step i w : good_event_light pmts sipms p wl ns nss r m (rn i) w -> Forall (fun d => pm_active d = true) pmts -> selection_fits (map ss_row sipms) (cut (h_pmap p)) ->
    exists pm, right_light pmts sipms p ns r m (rn i) w pm /\ step_of rn pmts sipms p wl nss i (w_pmt w) (w_sipm w) = Ok (option_map as_pair pm).
  Proof using Type.
    intros [G Fit] Act Sel. destruct (HypaProps.step_found (hr_pmt (rn i)) (hr_sipm (rn i)) pmts sipms p ns nss _ _ _ r m G Fit Act Sel) as (ccs & rs & css & o & i1 & i2 & H1 & H2 & H3 & H4 & H5 & A1 & A2 & E & H). cbv zeta in H.
    exists (option_map (fun x => {| s1s := fst x; s2s := snd x |}) o). split; [|unfold step_of; rewrite E; now destruct o as [[]|]]. exists ccs, rs, css, i1, i2. split; [now split|]. split; [now split|]. split; [assumption|]. split; [now split|]. cbv zeta. destruct o as [[a b]|]; exact H.
  Qed.
  Lemma light_ok i w pm : NoDup (map pm_id pmts) -> (N.of_nat ns <= 65536)%N -> right_light pmts sipms p ns r m (rn i) w (Some pm) -> pmap_ok pm.
  Proof using Type. intros ND Hn (ccs & rs & css & i1 & i2 & _ & _ & _ & [A1 A2] & _ & _ & P1 & P2). exact (built_ok _ _ _ _ _ _ _ _ _ _ _ _ _ _ _ _ _ ND Hn A1 A2 P1 P2). Qed.

  Lemma hypathia_done events :
    (forall i w, nth_error events i = Some w -> good_event_light pmts sipms p wl ns nss r m (rn i) w /\ channels_fit (len pmts) w) -> Forall (fun d => pm_active d = true) pmts ->
    selection_fits (map ss_row sipms) (cut (h_pmap p)) -> NoDup (map number events) -> NoDup (map pm_id pmts) -> (N.of_nat ns <= 65536)%N ->
    exists o pms, pmaps_all f32 (step_of rn pmts sipms p wl nss) (len pmts) events nothing_found = Ok o /\
      Forall2 (fun iw pm => right_light pmts sipms p ns r m (rn (fst iw)) (snd iw) pm) (combine (seq 0 (len events)) events) pms /\ right_tables f32 events pms o.
  Proof using Type.
    intros G Act Sel ND NI Hn.
    destruct (each_event (fun iw pm => right_light pmts sipms p ns r m (rn (fst iw)) (snd iw) pm /\ step_of rn pmts sipms p wl nss (fst iw) (w_pmt (snd iw)) (w_sipm (snd iw)) = Ok (option_map as_pair pm)) events) as (pms & X).
    { intros i w Hw. cbn [fst snd]. now apply light_step; [apply G|..]. }
    destruct (tables_done f32 (step_of rn pmts sipms p wl nss) (len pmts) events pms) as (o & Run & T).
    - revert X. apply F2_impl. tauto.
    - apply Forall_forall. intros w Hw. destruct (In_nth_error _ _ Hw) as (i & Hi). now apply (G i w).
    - exact ND.
    - intros w pm H _. destruct (in_events _ _ _ _ X w pm H) as (i & Rw & _). exact (light_ok i w pm NI Hn Rw).
    - exists o, pms. split; [exact Run|]. split; [|exact T]. revert X. apply F2_impl. tauto.
  Qed.

  (** The run: the PMap of every event is the one of C97, and the tables are those that irene would write for these PMaps *)
  Theorem C111_hypathia open_file paths events :
    wf_from_files open_file paths = (events, None) ->
    (forall i w, nth_error events i = Some w -> good_event_light pmts sipms p wl ns nss r m (rn i) w /\ channels_fit (len pmts) w) -> Forall (fun d => pm_active d = true) pmts ->
    selection_fits (map ss_row sipms) (cut (h_pmap p)) -> NoDup (map number events) -> NoDup (map pm_id pmts) -> (N.of_nat ns <= 65536)%N ->
    exists o pms, hypathia f32 rn pmts sipms p wl nss open_file paths = Ok o /\
      Forall2 (fun iw pm => right_light pmts sipms p ns r m (rn (fst iw)) (snd iw) pm) (combine (seq 0 (len events)) events) pms /\ right_tables f32 events pms o.
  Proof using Type.
    intros Rd G Act Sel ND NI Hn. destruct (hypathia_done events G Act Sel ND NI Hn) as (o & pms & Run & H). exists o, pms. split; [|exact H]. unfold hypathia, pmaps_of_files. rewrite Rd, Run. reflexivity.
  Qed.
  (** a file that cannot be read ends the run *)
  Theorem C111_stopped open_file paths events e :
    wf_from_files open_file paths = (events, Some e) ->
    (forall i w, nth_error events i = Some w -> good_event_light pmts sipms p wl ns nss r m (rn i) w /\ channels_fit (len pmts) w) -> Forall (fun d => pm_active d = true) pmts ->
    selection_fits (map ss_row sipms) (cut (h_pmap p)) -> NoDup (map number events) -> NoDup (map pm_id pmts) -> (N.of_nat ns <= 65536)%N ->
    hypathia f32 rn pmts sipms p wl nss open_file paths = Err e.
  Proof using Type.
    intros Rd G Act Sel ND NI Hn. destruct (hypathia_done events G Act Sel ND NI Hn) as (o & pms & Run & H). unfold hypathia, pmaps_of_files. rewrite Rd, Run. reflexivity.
  Qed.
End Run.
Print Assumptions C111_hypathia.
Print Assumptions C111_stopped.

(** a run that ends has built something for every event *)
Lemma all_built {W L} f32 step n (events : list (waveforms (Z * Q) W L Z (list Z))) o o' : pmaps_all f32 step n events o = Ok o' ->
  forall i w, nth_error events i = Some w -> exists pm, step (it_in o + i) (w_pmt w) (w_sipm w) = Ok pm.
Proof.
  revert o. induction events as [|v events IH]; intros o H i w Hw; [destruct i; discriminate|]. cbn [pmaps_all] in H. destruct (step (it_in o) (w_pmt v) (w_sipm v)) as [pm|x] eqn:E; [|discriminate]. cbn [rbind] in H.
  destruct i as [|i]; [injection Hw as <-; exists pm; now rewrite Nat.add_0_r|]. cbn [nth_error] in Hw. replace (it_in o + S i) with (S (it_in o) + i) by lia.
  destruct pm as [pm|]; [|exact (IH _ H i w Hw)]. destruct (nonempty_pmap pm); [|exact (IH _ H i w Hw)]. destruct (store_pmap _ _ _ _) as [t|x]; [|discriminate]. cbn [rbind] in H. destruct (store_trigger _ _ _ _) as [t'|x]; [|discriminate]. exact (IH _ H i w Hw).
Qed.
(** With a PMT that is not in use, the first event with a peak ends the run with an error: no run in which some event has one can be completed *)
Theorem C111_masked_refuted f32 rn pmts sipms p wl ns nss r m open_file paths events e i w :
  wf_from_files open_file paths = (events, e) -> nth_error events i = Some w -> good_event_light pmts sipms p wl ns nss r m (rn i) w -> (exists d, In d pmts /\ pm_active d = false) ->
  exists ccs i1 i2, pmts_simulated pmts p (rn i) w ccs /\ light_above p ns ccs i1 i2 /\
    let q := h_pmap p in
    let has_peak s idx := exists gs g, gap_partition (k_stride s) idx gs /\ In g gs /\ qualifies (k_time s) (k_length s) (pmt_wid q) g in
    (i1 <> [] -> i2 <> [] -> has_peak (s1_params q) i1 \/ has_peak (s2_params q) i2 -> forall o, hypathia f32 rn pmts sipms p wl nss open_file paths <> Ok o).
Proof.
  intros Rd Hw [G Fit] Ina. destruct (C97_masked_refuted (hr_pmt (rn i)) (hr_sipm (rn i)) pmts sipms p ns nss _ _ _ r m G Fit Ina) as (ccs & i1 & i2 & H1 & H2 & A1 & A2 & H). cbv zeta in H.
  exists ccs, i1, i2. split; [now split|]. split; [now split|]. cbv zeta. intros N1 N2 Hp o Run. specialize (H N1 N2 Hp). unfold hypathia, pmaps_of_files in Run. rewrite Rd in Run.
  destruct (pmaps_all f32 (step_of rn pmts sipms p wl nss) (len pmts) events nothing_found) as [o'|x] eqn:E; [|discriminate]. destruct (all_built _ _ _ _ _ _ E i w Hw) as (pm & Es). cbn [it_in nothing_found Nat.add] in Es. unfold step_of in Es. unfold hypathia_event in H. rewrite Es in H. discriminate.
Qed.
Print Assumptions C111_masked_refuted.

(** ---- a case: the event of C97 and one without light, in two files ---- *)
Definition dark_light := [repeat 0%Q 20; repeat 0%Q 20].
Definition hrun_randoms (i : nat) : hyp_randoms := {| hr_pmt := hex_draw; hr_sipm := hex_draw; hr_noise := hex_noise |}.
Definition hrun_file (run n : Z) (light : list (list Q)) : mcrd_file :=
  {| h_events := Some [(n, inject_Z (10 * n))]; h_run := Some [run]; h_pmt := Some [light]; h_sipm := Some [hex_light]; h_trg := Some [n]; h_chn := Some [[1; 0]]%Z |}.
Definition hrun_open (name : string) : mcrd_file := if String.eqb name "a" then hrun_file (-1) 7 (rows hex_pmtrd) else hrun_file (-2) 9 dark_light.
Definition hrun_event (run n : Z) (light : list (list Q)) : mcrd_event :=
  {| w_pmt := light; w_sipm := hex_light; w_run := run; w_event := (n, inject_Z (10 * n)); w_trg := Some n; w_chn := Some [1; 0]%Z |}.
Definition hrun_events : list mcrd_event := [hrun_event (-1) 7 (rows hex_pmtrd); hrun_event (-2) 9 dark_light]%Z.
Example C111_hypotheses : wf_from_files hrun_open ["a"; "b"]%string = (hrun_events, None) /\
  (forall b i w, nth_error hrun_events i = Some w -> good_event_light (hex_pmts b) hex_sipms hex_par 20 10 5 2 1 (hrun_randoms i) w /\ channels_fit (len (hex_pmts b)) w) /\
  Forall (fun d => pm_active d = true) (hex_pmts true) /\ selection_fits (map ss_row hex_sipms) (cut (h_pmap hex_par)) /\ NoDup (map number hrun_events) /\ NoDup (map pm_id (hex_pmts true)) /\ (N.of_nat 10 <= 65536)%N.
Proof.
  split; [reflexivity|]. split.
  - intros b i w Hw. destruct i as [|[|i]]; cbn in Hw; [injection Hw as <-|injection Hw as <-|destruct i; discriminate].
    + split; [|intros c Hc; now injection Hc as <-]. split; [|apply hex_fit]. exact (hex_good b).
    + split; [|intros c Hc; now injection Hc as <-]. split; [|apply hex_fit]. destruct (hex_good b). split; try assumption; try reflexivity. repeat constructor.
  - split; [repeat constructor|]. split; [exact I|]. split; [repeat constructor; cbn; intuition discriminate|]. split; [repeat constructor; cbn; intuition discriminate|vm_compute; discriminate].
Qed.
Example C111_ex : match hypathia (fun x => x) hrun_randoms (hex_pmts true) hex_sipms hex_par 20 5 hrun_open ["a"; "b"]%string with
  | Ok o => it_indices o = [(7, true); (9, false)]%Z /\ it_peaks o = [(7, true)]%Z /\ it_runs o = [-1]%Z /\ it_numbers o = [7]%Z /\ trg_types (it_trigger o) = [7]%Z /\ it_in o = 2 /\ it_out o = 1
  | Err _ => False
  end /\ hypathia (fun x => x) hrun_randoms (hex_pmts false) hex_sipms hex_par 20 5 hrun_open ["a"; "b"]%string = Err ValueError /\
  hypathia (fun x => x) hrun_randoms (hex_pmts true) hex_sipms hex_par 20 5 (fun n => if String.eqb n "c" then {| h_events := Some []; h_run := Some []; h_pmt := Some []; h_sipm := Some []; h_trg := None; h_chn := None |} else hrun_open n) ["a"; "c"]%string = Err IndexError.
Proof. split; [vm_compute; repeat split|split; vm_compute; reflexivity]. Qed.
