(** C110: irene over the file of diomira, and concrete cases *)
From Coq Require Import String Lia NArith.
From Verif Require Import Base ConfigModel ConfigSpec ConfigProps TablesModel.
From Verif Require Import PeaksModel PeaksSpec CalibModel CalibSpec IreneModel IreneSpec IreneProps PmapioModel PmapioSpec PmapioProps NoiseModel FeeModel HypaModel HypaSpec TrigModel DioModel DioSpec DioProps
  IrunModel IrunSpec IrunProps PreadModel PreadSpec PreadProps FrunModel FrunSpec FrunProps.
Local Open Scope nat_scope.

Lemma nodup_kept {A} (ws : list mcrd_event) (outs : list (option A)) : NoDup (map (fun w => fst (w_event w)) ws) -> NoDup (map (fun x => fst (w_event (fst x))) (those_with (combine ws outs))).
Proof.
  revert outs. induction ws as [|w ws IH]; intros [|out outs] H; try constructor. inversion H as [|? ? N H']; subst. unfold those_with. cbn [combine flat_map]. destruct out as [a|]; cbn [snd fst app]; [|now apply IH].
  cbn [map fst]. constructor; [|now apply IH]. intros Hin. apply N. apply in_map_iff in Hin. destruct Hin as ([e' a'] & E & Hin). apply those_in in Hin. apply in_combine_l in Hin. cbn [fst] in E. rewrite <- E. now apply (in_map (fun w => fst (w_event w))).
Qed.

Section Chain.
  Variables (butter : Q -> Q * Q * Q) (sqrt : Q -> Q) (f32 : Q -> Q) (e : electronics) (rn : nat -> randoms) (db : list dio_row) (sipms : list sim_row) (noise_cut : Q) (padding : nat) (t : option (bool * trig_conf)) (ns nss : nat).
  Variables (p : params) (r m : nat).
  (** the columns of the same rows of the database that irene uses *)
  Let pmts := map (fun d => dq_row (dp_row d)) db.
  Let rows := map ss_row sipms.

  (** Of the events that pass the trigger of diomira, irene makes PMaps from the waveforms that diomira simulated for them: the file of irene has those with peaks, and its PMaps
      are read back. If no event passes, irene fails. *)
  Theorem C110_chain open_file paths events name :
    wf_from_files open_file paths = (events, None) -> ns mod 25 = 0 -> (forall i w, nth_error events i = Some w -> good_light butter sqrt e db sipms t ns nss (rn i) w) ->
    good_setup pmts rows p (ns / 25) nss r m -> selection_fits rows (cut p) -> NoDup (map (fun w => fst (w_event w)) events) -> NoDup (map pm_id (filter pm_active pmts)) -> (N.of_nat (ns / 25) <= 65536)%N ->
    exists o outs,
      diomira (event_of butter sqrt e rn db sipms noise_cut padding t ns nss) open_file paths = Ok o /\
      Forall2 (fun iw out => simulated butter sqrt e db sipms noise_cut padding t ns nss (rn (fst iw)) (snd iw) out) (combine (seq 0 (len events)) events) outs /\
      let passed := those_with (combine events outs) in
      match passed with
      | [] => irene f32 (irene_step butter sqrt pmts rows p (ns / 25) nss) (len pmts) (fun _ => diomira_file o) [name] = Err IndexError
      | first :: _ => exists o2 pms part,
          irene f32 (irene_step butter sqrt pmts rows p (ns / 25) nss) (len pmts) (fun _ => diomira_file o) [name] = Ok o2 /\
          Forall2 (fun x pm => right_step butter sqrt pmts rows p (ns / 25) r m (in_file (w_run (fst first)) x) pm) passed pms /\
          let kept := with_peaks (combine (map (in_file (w_run (fst first))) passed) pms) in
          it_in o2 = dt_passed o /\ it_out o2 = len kept /\ it_events o2 = map (fun x => w_event (fst x)) kept /\ it_trigger o2 = {| trg_types := []; trg_channels := [] |} /\
          pmap_from_files [irene_output o2] = (part, None) /\
          Forall2 (fun x it => (pi_event it, pi_time it) = w_event (fst x) /\ pi_run it = w_run (fst first) /\ pi_pmap it = round_pmap f32 (snd x)) kept part
      end.
  Proof using Type.
    intros Rd Hns GL GS SF ND NI Hn. destruct (C110_diomira butter sqrt e rn db sipms noise_cut padding t ns nss open_file paths events Rd Hns GL) as (o & outs & Run & Sim & H). cbv zeta in H. set (passed := those_with (combine events outs)) in *.
    destruct H as (_ & E1 & E2 & _ & E3 & _ & E4 & _ & E5). exists o, outs. split; [exact Run|]. split; [exact Sim|]. cbv zeta. fold passed. pose proof (file_of_diomira o name passed E1 E2 E3 E4) as Rd2.
    assert (Pe : forall x, In x passed -> len (fst (fst (snd x))) = len db /\ Forall (fun z => len z = ns / 25) (fst (fst (snd x))) /\ len (snd (snd x)) = len sipms /\ Forall (fun z => len z = nss) (snd (snd x))).
    { intros [w [[rwf blr] cs]] Hx. apply those_in in Hx. destruct (in_events _ _ _ _ Sim _ _ Hx) as (i & rwf' & blr' & L1 & L2 & K1 & K2 & _ & -> & -> & _ & L3 & K3 & _). cbn [fst snd]. now repeat split. }
    pose proof (nodup_kept events outs ND) as NP. fold passed in NP.
    destruct passed as [|first more]; [unfold irene, pmaps_of_files; rewrite Rd2; reflexivity|]. set (passed := first :: more) in *. set (run := w_run (fst first)) in *.
    destruct (C110_irene butter sqrt f32 pmts rows p (ns / 25) nss r m (fun _ => diomira_file o) [name] (map (in_file run) passed) Rd2) as (o2 & pms & Run2 & R & T); try assumption.
    { intros w Hw. apply in_map_iff in Hw. destruct Hw as (x & <- & Hx). destruct (Pe x Hx) as (L1 & K1 & L3 & K3). split; [|intros c Hc; discriminate]. destruct GS. split; try assumption; unfold pmts, rows; cbn [in_file w_pmt w_sipm]; rewrite ?map_length; assumption. }
    { rewrite map_map. exact NP. }
    unfold right_tables in T. cbv zeta in T. set (kept := with_peaks (combine (map (in_file run) passed) pms)) in *. destruct T as (_ & _ & T1 & T2 & _ & T3 & T4 & T5 & T6 & part & T7 & T8).
    exists o2, pms, part. split; [exact Run2|]. split; [clear -R; revert pms R; generalize passed; intros l; induction l as [|x l IH]; intros pms R; inversion R; subst; constructor; auto|]. cbv zeta. fold kept.
    split; [rewrite T5, map_length, E5; reflexivity|]. split; [exact T6|]. split; [exact T1|].
    assert (Kin : forall x, In x kept -> w_run (fst x) = run /\ w_trg (fst x) = None /\ w_chn (fst x) = None).
    { intros [w pm] Hx. apply filter_In in Hx. destruct Hx as [Hx _]. apply those_in in Hx. apply in_combine_l in Hx. apply in_map_iff in Hx. destruct Hx as (y & <- & _). repeat split. }
    split.
    { destruct (it_trigger o2) as [a b]. cbn [trg_types trg_channels] in T3, T4. subst a b. clear -Kin. f_equal.
      - induction kept as [|x l IH]; [reflexivity|]. cbn [map types_of flat_map]. destruct (Kin x (or_introl eq_refl)) as (_ & -> & _). apply IH. intros; apply Kin; now right.
      - induction kept as [|x l IH]; [reflexivity|]. cbn [map channels_of flat_map]. destruct (Kin x (or_introl eq_refl)) as (_ & _ & ->). apply IH. intros; apply Kin; now right. }
    split; [exact T7|]. rewrite T2 in T8. destruct kept as [|k0 kept']; [inversion T8; constructor|]. destruct (Kin k0 (or_introl eq_refl)) as (Kr & _). cbn [map head] in T8. rewrite Kr in T8. revert T8. apply F2_impl.
    intros x it (H1 & H2 & H3 & H4). split; [rewrite H1, H2; unfold number; now destruct (w_event (fst x))|]. split; [now injection H3|exact H4].
  Qed.
End Chain.
Print Assumptions C110_chain.

(** ---- a case: two events of 10000 samples, one PMT, one SiPM and no trigger; the electronics gives the noise of the digitization alone ---- *)
Definition quiet : electronics := {| spe := [1; 2]; scale := 25; fir := [1]; lpf := ([1], [1]); fee_filter := fun _ => ([1], [1]); v_to_adc := 0; offset := 2500; adc_ref := 2 |}%Q.
Lemma zero_map l : Forall (fun x => (x == 0)%Q) (map (fun x => x * v_to_adc quiet)%Q l).
Proof. apply Forall_forall. intros x H. apply in_map_iff in H. destruct H as (y & <- & _). cbn [v_to_adc quiet]. ring. Qed.
Lemma zero_plus l n : Forall (fun x => (x == 0)%Q) l -> Forall (fun x => -5000 <= x <= 5000)%Q n -> Forall (fun x => -5000 <= x <= 5000)%Q (map2 Qplus l n).
Proof. intros F. revert n. induction F as [|x l H F IH]; intros [|y n] K; cbn [map2]; constructor; inversion K; subst; [lra|now apply IH]. Qed.
Lemma minus_small l n : Forall (fun x => -5000 <= x <= 5000)%Q l -> Forall (fun x => -5000 <= x <= 5000)%Q n -> Forall sixteen_bits (map (fun x => offset quiet - x)%Q (map2 Qminus l n)).
Proof. intros F. revert n. induction F as [|x l H F IH]; intros [|y n] K; cbn [map2 map]; constructor; inversion K; subst; [unfold sixteen_bits; cbn [offset quiet]; lra|now apply IH]. Qed.
Lemma quiet_fits draw noise db light : (forall i, i < len db -> Forall (fun x => -5000 <= x <= 5000)%Q (n_daq (noise i)) /\ Forall (fun x => -5000 <= x <= 5000)%Q (n_low (noise i))) -> pmt_counts_fit quiet draw noise db light.
Proof.
  intros H i d w r b Hd Hw E. destruct (H i) as [H1 H2]; [apply nth_error_Some; congruence|]. unfold simulate_pmt, pmt_response in E. cbn [fee_filter quiet] in E. cbv beta iota zeta in E.
  match type of E with (if ?c then _ else _) = _ => destruct c; [|discriminate] end. injection E as <- <-. split.
  - apply (minus_small _ _ (zero_plus _ _ (zero_map _) H1) H2).
  - eapply Forall_impl; [|apply zero_map]. cbn beta. intros x Hx. unfold sixteen_bits. lra.
Qed.

Definition one_pmt : dio_row := {| dp_row := {| dq_row := {| pm_id := 3; pm_active := true; pm_clean := 1; pm_blr := 1 # 2; pm_gain := 2 |}; dq_channel := 0 |}; dp_sigma := 0 |}.
Definition one_sipm : sim_row := {| ss_row := {| sm_active := true; sm_gain := 1; sm_pos := (0, 0)%Q |}; ss_sigma := 0; ss_base := 0 |}.
Definition silence : list Q := repeat 0%Q 400.
Definition case_noise (i : nat) : pmt_noise := {| n_in := silence; n_daq := map (fun z => inject_Z (10 - z)) (IreneProps.pulses 8 3); n_low := silence |}.
Definition case_randoms (i : nat) : randoms := {| rn_pmt := fun _ _ q => q; rn_sipm := fun _ _ q => q; rn_noise := case_noise; rn_dark := [repeat 0%Q 200] |}.
Definition ten_thousand : nat := N.to_nat 10000.
Definition case_event (n : Z) (run : Z) : mcrd_event :=
  {| w_pmt := [repeat 0%Q ten_thousand]; w_sipm := [repeat 7%Q 200]; w_run := run; w_event := (n, inject_Z (10 * n)); w_trg := None; w_chn := None |}.
Definition case_file (run : Z) (l : list Z) : mcrd_file :=
  {| h_events := Some (map (fun n => (n, inject_Z (10 * n))) l); h_run := Some [run]; h_pmt := Some (map (fun _ => [repeat 0%Q ten_thousand]) l); h_sipm := Some (map (fun _ => [repeat 7%Q 200]) l); h_trg := None; h_chn := None |}.
Definition case_open (name : string) : mcrd_file := if String.eqb name "a" then case_file 5 [7; 9]%Z else case_file 6 [12]%Z.
Definition case_params : params := IreneProps.ex_par (CutThreshold (CommonThr 3) 1).
Example C110_hypotheses : wf_from_files case_open ["a"; "b"]%string = ([case_event 7 5; case_event 9 5; case_event 12 6]%Z, None) /\ ten_thousand mod 25 = 0 /\
  (forall i w, nth_error [case_event 7 5; case_event 9 5; case_event 12 6]%Z i = Some w -> good_light ex_butter ex_sqrt quiet [one_pmt] [one_sipm] None ten_thousand 200 (case_randoms i) w) /\
  good_setup (map (fun d => dq_row (dp_row d)) [one_pmt]) (map ss_row [one_sipm]) case_params (ten_thousand / 25) 200 2 2 /\ selection_fits (map ss_row [one_sipm]) (cut case_params) /\
  NoDup (map (fun w => fst (w_event w)) [case_event 7 5; case_event 9 5; case_event 12 6]%Z) /\ NoDup (map pm_id (filter pm_active (map (fun d => dq_row (dp_row d)) [one_pmt]))) /\ (N.of_nat (ten_thousand / 25) <= 65536)%N.
Proof.
  assert (D : ten_thousand / 25 = 400) by (unfold ten_thousand; change 25 with (N.to_nat 25); rewrite <- N2Nat.inj_div; reflexivity).
  assert (M : ten_thousand mod 25 = 0) by (unfold ten_thousand; change 25 with (N.to_nat 25); rewrite <- N2Nat.inj_mod; reflexivity).
  split; [reflexivity|]. split; [exact M|]. split.
  - intros i w Hw. assert (Hs : w_pmt w = [repeat 0%Q ten_thousand] /\ w_sipm w = [repeat 7%Q 200]) by (destruct i as [|[|[|i]]]; cbn in Hw; [injection Hw as <-; now split..|destruct i; discriminate]). destruct Hs as [Ep Es]. unfold good_light. rewrite Ep, Es. cbn [case_randoms rn_pmt rn_sipm rn_noise rn_dark].
    split; [|split; [|split]].
    + split; try reflexivity.
      * split; [cbn; lia|]. change (len (spe quiet)) with (N.to_nat 2). unfold ten_thousand. lia.
      * constructor; [apply repeat_length|constructor].
      * intros j Hj. assert (U : (ten_thousand + 24) / 25 = 400) by (unfold ten_thousand; change 25 with (N.to_nat 25); change 24 with (N.to_nat 24); rewrite <- N2Nat.inj_add, <- N2Nat.inj_div; reflexivity).
        unfold noise_fits. cbn [case_noise n_in n_daq n_low]. rewrite D, U. unfold silence. rewrite repeat_length, map_length. repeat split.
      * constructor; [apply repeat_length|constructor].
      * constructor; [apply repeat_length|constructor].
    + apply quiet_fits. intros j Hj. cbn [case_noise n_daq n_low]. assert (Z0 : Forall (fun x => -5000 <= x <= 5000)%Q silence) by (apply Forall_forall; intros x Hx; apply repeat_spec in Hx; subst x; lra). split; [|exact Z0].
      apply Forall_forall. intros x Hx. apply in_map_iff in Hx. destruct Hx as (z & <- & Hz). assert (B : (-1000 <= z <= 1000)%Z).
      { revert z Hz. apply Forall_forall. assert (C : forallb (fun z => (-1000 <=? z)%Z && (z <=? 1000)%Z) (IreneProps.pulses 8 3) = true) by (vm_compute; reflexivity). rewrite forallb_forall in C. apply Forall_forall. intros z Hz. specialize (C z Hz). lia. }
      change (-5000)%Q with (inject_Z (-5000)). change 5000%Q with (inject_Z 5000). rewrite <- !Zle_Qle. lia.
    + intros s d l n fl j H1 H2 H3 [L F] Hj. destruct s as [|s]; [|destruct s; discriminate]. change (Some one_sipm = Some d) in H1. change (Some (repeat 7%Q 200) = Some l) in H2. change (Some (repeat 0%Q 200) = Some n) in H3. assert (n = repeat 0%Q 200) by congruence. assert (l = repeat 7%Q 200) by congruence. assert (d = one_sipm) by congruence. clear H1 H2 H3. subst n l d.
      specialize (F j Hj). cbn [one_sipm ss_row sm_gain ss_sigma] in *.
      change (Qeqb 1 0) with false in F. cbv iota zeta in F. change (Qeqb (0 / 1) 0) with true in F. cbv iota in F. rewrite F. rewrite !nth_repeat. destruct (nth_in_or_default j (repeat 7%Q 200) 0%Q) as [K|K]; [apply repeat_spec in K; rewrite K; lra|rewrite K; lra].
    + intros rwf blr _. exists true. reflexivity.
  - rewrite D. split; [|split; [exact I|split; [repeat constructor; cbn; intuition discriminate|split; [repeat constructor; cbn; intuition discriminate|vm_compute; discriminate]]]].
    split; try reflexivity; try (cbn; lia); try (vm_compute; discriminate).
    + exists (dq_row (dp_row one_pmt)). split; [now left|reflexivity].
    + intros d [<-|[]] _ H. discriminate H.
Qed.

(** a file of irene's with the events of C104, the second without light, with their triggers *)
Definition two_events : rwf_file :=
  {| h_events := Some [(7%Z, 100%Q); (9%Z, 200%Q)]; h_run := Some [5%Z; 5%Z]; h_pmt := Some [IreneProps.ex_rp; [repeat 10%Z 400; repeat 10%Z 400; repeat 10%Z 400]]; h_sipm := Some [IreneProps.ex_rs; IreneProps.ex_rs];
     h_trg := Some [8%Z; 3%Z]; h_chn := Some [[1; 0; 1]; [0; 0; 0]]%Z |}.
Definition two_read : list rwf_event :=
  [{| w_pmt := IreneProps.ex_rp; w_sipm := IreneProps.ex_rs; w_run := 5; w_event := (7%Z, 100%Q); w_trg := Some 8%Z; w_chn := Some [1; 0; 1]%Z |};
   {| w_pmt := [repeat 10%Z 400; repeat 10%Z 400; repeat 10%Z 400]; w_sipm := IreneProps.ex_rs; w_run := 5; w_event := (9%Z, 200%Q); w_trg := Some 3%Z; w_chn := Some [0; 0; 0]%Z |}].
Example C110_irene_ex : wf_from_files (fun _ => two_events) ["a"%string] = (two_read, None) /\
  (forall w, In w two_read -> good_event IreneProps.ex_pmts (IreneProps.ex_sipms true) (IreneProps.ex_par IreneProps.individual) 400 200 (w_pmt w) (w_sipm w) 2 2 /\ channels_fit 3 w) /\
  NoDup (map number two_read) /\
  match irene (fun x => x) (irene_step IreneProps.ex_butter IreneProps.ex_sqrt IreneProps.ex_pmts (IreneProps.ex_sipms true) (IreneProps.ex_par IreneProps.individual) 400 200) 3 (fun _ => two_events) ["a"%string] with
  | Ok o => it_indices o = [(7, true); (9, false)]%Z /\ it_peaks o = [(7, true)]%Z /\ it_runs o = [5]%Z /\ trg_types (it_trigger o) = [8]%Z /\ trg_channels (it_trigger o) = [[1; 0; 1]]%Z
  | Err _ => False
  end.
Proof.
  split; [reflexivity|]. split; [|split; [repeat constructor; cbn; intuition discriminate|vm_compute; repeat split]].
  intros w [<-|[<-|[]]].
  - split; [apply IreneProps.ex_good|]. intros c Hc. injection Hc as <-. reflexivity.
  - split; [|intros c Hc; injection Hc as <-; reflexivity]. destruct (IreneProps.ex_good true IreneProps.individual). split; try assumption; try reflexivity; repeat constructor.
Qed.
(** the second file has tables of different lengths *)
Example C110_stopped_ex : wf_from_files (fun n => if String.eqb n "a" then two_events else {| h_events := Some [(12%Z, 1%Q)]; h_run := Some [5%Z]; h_pmt := Some []; h_sipm := Some []; h_trg := None; h_chn := None |}) ["a"; "b"]%string =
  (two_read, Some InvalidInputFileStructure).
Proof. reflexivity. Qed.
