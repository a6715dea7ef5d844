(** C113: the tables of a run of isidora *)
From Coq Require Import String Lia NArith.
From Verif Require Import Base ConfigModel ConfigSpec ConfigProps TablesModel.
From Verif Require Import PeaksModel PeaksSpec CalibModel CalibSpec CalibBlr IreneModel IreneSpec IreneSteps IreneProps PmapioModel PmapioSpec NoiseModel FeeModel HypaModel HypaSpec TrigModel DioModel DioSpec DioProps IreneProofs
  PreadModel PreadProps FrunModel FrunSpec FrunProps FrunChain IsiModel IsiSpec.
Local Open Scope nat_scope.

Lemma rows_fit {A} n l (m : list (list A)) : len m = n -> Forall (fun x => len x = l) m -> fits_table n l m = true.
Proof. intros <- F. unfold fits_table. apply Nat.eqb_eq. induction F as [|x m H F IH]; [reflexivity|]. cbn [map sumN len Nat.mul]. change (sumN (len x :: map (@List.length A) m)) with (len x + sumN (map (@List.length A) m)). rewrite IH, H. reflexivity. Qed.
Lemma all_stored l : Forall (Forall sixteen_bits) l -> exists z, rmap (rmap store_float) l = Ok z /\ Forall2 (Forall2 whole_part) l z.
Proof.
  intros F. assert (S : forall x, Forall sixteen_bits x -> exists z, rmap store_float x = Ok z /\ Forall2 whole_part x z).
  { induction 1 as [|x l' H F' IH]; [exists []; split; [reflexivity|constructor]|]. destruct (store_ok x H) as (z & E & W). destruct IH as (zs & E' & W'). exists (z :: zs). cbn. rewrite E. cbn. rewrite E'. split; [reflexivity|now constructor]. }
  induction F as [|x l H F IH]; [exists []; split; [reflexivity|constructor]|]. destruct (S x H) as (z & E & W). destruct IH as (zs & E' & W'). exists (z :: zs). cbn. rewrite E. cbn. rewrite E'. split; [reflexivity|now constructor].
Qed.

Section Isidora.
  Variables (butter : Q -> Q * Q * Q) (sqrt : Q -> Q) (pmts : list pmt_row) (n_baseline : nat) (s : shapes).

  Lemma one_restored d w c : deconvolve_one butter sqrt n_baseline d w = Ok c -> restored butter sqrt n_baseline d w c /\ len c = len w.
  Proof using.
    unfold deconvolve_one, restored. destruct (butter (pm_clean d)) as [[b0 b1] a1]. intros Hc. split.
    - eexists. split; [|exact Hc]. pose proof (mean0_is n_baseline w) as Em. set (b := mean0 _) in *. set (b' := (_ / _)%Q) in *. clearbody b b'. clear -Em. induction w; constructor; [unfold zq; now rewrite Em|assumption].
    - apply length_deconvolved in Hc. now rewrite map_length in Hc.
  Qed.
  Lemma event_restored w : good_rwf butter sqrt pmts n_baseline s w -> exists z, isidora_event butter sqrt pmts n_baseline s w = Ok z /\ right_cwf butter sqrt pmts n_baseline w z.
  Proof using.
    intros G. unfold isidora_event, deconv_pmt. rewrite (gr_rows _ _ _ _ _ _ G), (gr_in_use _ _ _ _ _ _ G), Nat.eqb_refl. cbn [negb]. pose proof (gr_base _ _ _ _ _ _ G) as Hb. pose proof (gr_some _ _ _ _ _ _ G) as Hs.
    destruct (Nat.eqb_spec n_baseline 0); [lia|]. destruct (Nat.eqb_spec (n_pmt s) 0); [lia|]. cbn [orb].
    set (ap := combine (filter pm_active pmts) (w_pmt w)).
    assert (La : len ap = n_pmt s) by (unfold ap; rewrite combine_length, (gr_rows _ _ _ _ _ _ G), (gr_in_use _ _ _ _ _ _ G); lia).
    destruct (rmap_Forall2 (fun dw => deconvolve_one butter sqrt n_baseline (fst dw) (snd dw)) ap) as (cs & E & F).
    { intros [d x] Hd. cbn [fst snd]. unfold deconvolve_one. destruct (butter (pm_clean d)) as [[b0 b1] a1]. pose proof (in_combine_l _ _ _ _ Hd) as Hl. pose proof (in_combine_r _ _ _ _ Hd) as Hr. apply filter_In in Hl. destruct Hl as [Hl Ha].
      apply C55_domain; [now apply (gr_blr _ _ _ _ _ _ G)|]. rewrite map_length. pose proof (gr_samples _ _ _ _ _ _ G) as Fs. rewrite Forall_forall in Fs. rewrite (Fs _ Hr). apply (gr_long _ _ _ _ _ _ G). }
    fold ap. rewrite E. cbn [rbind].
    assert (Fc : Forall (fun c => len c = pmt_wl s) cs /\ Forall (Forall sixteen_bits) cs).
    { pose proof (gr_samples _ _ _ _ _ _ G) as Fs. pose proof (gr_fits _ _ _ _ _ _ G) as Ff. fold ap in Ff. assert (Fa : forall dw, In dw ap -> len (snd dw) = pmt_wl s) by (intros [d x] Hd; rewrite Forall_forall in Fs; apply Fs; exact (in_combine_r _ _ _ _ Hd)).
      clear -F Ff Fa. induction F as [|dw c l cs Hc F IH]; [split; constructor|]. destruct IH as [I1 I2]; [intros; eapply Ff; [right|]; eassumption|intros; apply Fa; now right|]. split; constructor; try assumption.
      - destruct (one_restored _ _ _ Hc) as [_ ->]. apply Fa. now left.
      - apply (Ff dw c (or_introl eq_refl) Hc). }
    destruct Fc as [Fl Ft]. rewrite (rows_fit (n_pmt s) (pmt_wl s) cs); [|rewrite <- (Forall2_len _ _ _ F); exact La|exact Fl]. cbn [negb]. destruct (all_stored cs Ft) as (z & Ez & Fz). rewrite Ez. cbn [rbind].
    rewrite (rows_fit (n_sipm s) (sipm_wl s)); [|apply (gr_sipms _ _ _ _ _ _ G)|apply (gr_sipm _ _ _ _ _ _ G)]. cbn [negb]. exists z. split; [reflexivity|]. unfold right_cwf. fold ap.
    clear -F Fz. revert z Fz. induction F as [|dw c l cs Hc F IH]; intros z Fz; inversion Fz; subst; constructor; [exists c; split; [now apply one_restored|assumption]|now apply IH].
  Qed.

  Notation all := (isidora_all butter sqrt pmts n_baseline s).
  Lemma all_grown events : forall o, (forall w, In w events -> good_rwf butter sqrt pmts n_baseline s w) -> exists o' zs, all events o = Ok o' /\ Forall2 (right_cwf butter sqrt pmts n_baseline) events zs /\
    si_cwf o' = si_cwf o ++ zs /\ si_sipm o' = si_sipm o ++ map w_sipm events /\ si_runs o' = si_runs o ++ map w_run events /\ si_events o' = si_events o ++ map w_event events /\
    si_numbers o' = si_numbers o ++ map number events /\ si_in o' = si_in o + len events.
  Proof using.
    induction events as [|w events IH]; intros o H; [exists o, []; cbn; rewrite !app_nil_r, Nat.add_0_r; repeat split; constructor|].
    destruct (event_restored w (H w (or_introl eq_refl))) as (z & E & R). cbn [isidora_all]. rewrite E. cbn [rbind].
    match goal with |- context [isidora_all _ _ _ _ _ events ?o1] => destruct (IH o1) as (o' & zs & D & F & G1 & G2 & G3 & G4 & G5 & G6); [intros; apply H; now right|] end.
    exists o', (z :: zs). cbn [si_cwf si_sipm si_runs si_events si_numbers si_in] in *. rewrite <- app_assoc in G1, G2, G3, G4, G5. cbn [map len app] in *. split; [exact D|]. split; [now constructor|]. do 5 (split; [assumption|]). lia.
  Qed.

  Notation city := (isidora butter sqrt pmts n_baseline s).
  (** every event of the files is written, in order *)
  Theorem C113_isidora open_file paths events : wf_from_files open_file paths = (events, None) -> (forall w, In w events -> good_rwf butter sqrt pmts n_baseline s w) ->
    exists o, city open_file paths = Ok o /\ Forall2 (right_cwf butter sqrt pmts n_baseline) events (si_cwf o) /\ si_sipm o = map w_sipm events /\ si_runs o = map w_run events /\
      si_events o = map w_event events /\ si_numbers o = map number events /\ si_in o = len events.
  Proof using.
    intros Rd G. destruct (all_grown events nothing_restored G) as (o & zs & E & F & G1 & H). exists o. unfold isidora. rewrite Rd, E. split; [reflexivity|]. cbn [nothing_restored si_cwf si_sipm si_runs si_events si_numbers si_in app Nat.add] in *. rewrite G1. now split.
  Qed.
  (** a file that cannot be read ends the run *)
  Theorem C113_stopped open_file paths events e : wf_from_files open_file paths = (events, Some e) -> (forall w, In w events -> good_rwf butter sqrt pmts n_baseline s w) -> city open_file paths = Err e.
  Proof using. intros Rd G. destruct (all_grown events nothing_restored G) as (o & zs & E & _). unfold isidora. now rewrite Rd, E. Qed.

  (** an event that does not have one waveform for each PMT in use ends the run, even with one for each PMT of the database *)
  Theorem C113_masked open_file paths before w after e : wf_from_files open_file paths = (before ++ w :: after, e) -> (forall v, In v before -> good_rwf butter sqrt pmts n_baseline s v) ->
    len (w_pmt w) <> len (filter pm_active pmts) -> city open_file paths = Err AssertionError.
  Proof using.
    intros Rd G N. unfold isidora. rewrite Rd. assert (X : forall o, all (before ++ w :: after) o = Err AssertionError).
    { clear Rd. induction before as [|v l IH]; intros o.
      - cbn [app isidora_all]. unfold isidora_event, deconv_pmt. destruct (Nat.eqb_spec (len (w_pmt w)) (len (filter pm_active pmts))); [contradiction|]. reflexivity.
      - cbn [app isidora_all]. destruct (event_restored v (G v (or_introl eq_refl))) as (z & -> & _). cbn [rbind]. apply IH. intros; apply G; now right. }
    rewrite X. reflexivity.
  Qed.
End Isidora.
Print Assumptions C113_isidora.
Print Assumptions C113_stopped.
Print Assumptions C113_masked.

Section Chain.
  Variables (butter : Q -> Q * Q * Q) (sqrt : Q -> Q) (e : electronics) (rn : nat -> randoms) (db : list dio_row) (sipms : list sim_row) (noise_cut : Q) (padding : nat) (t : option (bool * trig_conf)) (ns nss n_baseline : nat).
  (** the columns of the same rows of the database that isidora uses, and the shapes of the arrays of the file of diomira *)
  Let pmts := map (fun d => dq_row (dp_row d)) db.
  Let s := {| n_pmt := len db; pmt_wl := ns / 25; n_sipm := len sipms; sipm_wl := nss |}.

  (** isidora over the file of diomira, with all the PMTs in use: the events that passed the trigger *)
  Theorem C113_chain open_file paths events name :
    wf_from_files open_file paths = (events, None) -> ns mod 25 = 0 -> (forall i w, nth_error events i = Some w -> good_light butter sqrt e db sipms t ns nss (rn i) w) ->
    (forall d, In d pmts -> pm_active d = true /\ ~ (pm_blr d == 0)%Q) -> 0 < len db -> 400 <= ns / 25 -> 0 < n_baseline ->
    exists o outs,
      diomira (event_of butter sqrt e rn db sipms noise_cut padding t ns nss) open_file paths = Ok o /\
      Forall2 (fun iw out => simulated butter sqrt e db sipms noise_cut padding t ns nss (rn (fst iw)) (snd iw) out) (combine (seq 0 (len events)) events) outs /\
      let passed := those_with (combine events outs) in
      match passed with
      | [] => isidora butter sqrt pmts n_baseline s (fun _ => diomira_file o) [name] = Err IndexError
      | first :: _ =>
          (forall x dw c, In x passed -> In dw (combine pmts (fst (fst (snd x)))) -> deconvolve_one butter sqrt n_baseline (fst dw) (snd dw) = Ok c -> Forall sixteen_bits c) ->
          exists o2, isidora butter sqrt pmts n_baseline s (fun _ => diomira_file o) [name] = Ok o2 /\
            Forall2 (fun x z => Forall2 (fun dw k => exists c, restored butter sqrt n_baseline (fst dw) (snd dw) c /\ Forall2 whole_part c k) (combine pmts (fst (fst (snd x)))) z) passed (si_cwf o2) /\
            si_sipm o2 = dt_sipm o /\ si_events o2 = dt_events o /\ si_runs o2 = map (fun _ => w_run (fst first)) passed /\ si_numbers o2 = dt_numbers o /\ si_in o2 = dt_passed o
      end.
  Proof using Type.
    intros Rd Hns GL Act Hd H4 Hb. destruct (C110_diomira butter sqrt e rn db sipms noise_cut padding t ns nss open_file paths events Rd Hns GL) as (o & outs & Run & Sim & H). cbv zeta in H. set (passed := those_with (combine events outs)) in *.
    destruct H as (_ & E1 & E2 & E6 & E3 & _ & E4 & _ & E5). exists o, outs. split; [exact Run|]. split; [exact Sim|]. cbv zeta. fold passed. pose proof (file_of_diomira o name passed E1 E2 E3 E4) as Rd2.
    assert (Pe : forall x, In x passed -> len (fst (fst (snd x))) = len db /\ Forall (fun z => len z = ns / 25) (fst (fst (snd x))) /\ len (snd (snd x)) = len sipms /\ Forall (fun z => len z = nss) (snd (snd x))).
    { intros [w [[rwf blr] cs]] Hx. apply those_in in Hx. destruct (in_events _ _ _ _ Sim _ _ Hx) as (i & rwf' & blr' & L1 & L2 & K1 & K2 & _ & -> & -> & _ & L3 & K3 & _). cbn [fst snd]. now repeat split. }
    destruct passed as [|first more]; [unfold isidora; rewrite Rd2; reflexivity|]. set (passed := first :: more) in *. set (run := w_run (fst first)) in *. intros Fit.
    assert (Ac : filter pm_active pmts = pmts). { clear -Act. induction pmts as [|d l IH]; [reflexivity|]. cbn [filter]. destruct (Act d (or_introl eq_refl)) as [-> _]. f_equal. apply IH. intros; apply Act; now right. }
    destruct (C113_isidora butter sqrt pmts n_baseline s (fun _ => diomira_file o) [name] (map (in_file run) passed) Rd2) as (o2 & Run2 & R & T1 & T2 & T3 & T4 & T5).
    { intros w Hw. apply in_map_iff in Hw. destruct Hw as (x & <- & Hx). destruct (Pe x Hx) as (L1 & K1 & L3 & K3). split; cbn [in_file w_pmt w_sipm s n_pmt pmt_wl n_sipm sipm_wl]; try assumption.
      - rewrite Ac. unfold pmts. now rewrite map_length.
      - intros d Hin _. now apply Act.
      - rewrite Ac. intros dw c Hin. now apply (Fit x). }
    exists o2. split; [exact Run2|]. split.
    { unfold right_cwf in R. rewrite Ac in R. clear -R. set (f := in_file run) in *. assert (G : forall l zs, Forall2 (fun (w : rwf_event) z => Forall2 (fun dw k => exists c, restored butter sqrt n_baseline (fst dw) (snd dw) c /\ Forall2 whole_part c k) (combine pmts (w_pmt w)) z) (map f l) zs -> Forall2 (fun x z => Forall2 (fun dw k => exists c, restored butter sqrt n_baseline (fst dw) (snd dw) c /\ Forall2 whole_part c k) (combine pmts (fst (fst (snd x)))) z) l zs).
      { induction l as [|x l IH]; intros zs F; inversion F; subst; constructor; auto. } now apply G. }
    rewrite T1, T2, T3, T4, T5, E1, E4, E5, !map_map, map_length, E6. repeat split.
  Qed.
End Chain.
Print Assumptions C113_chain.

(** two PMTs in use; and the events of C110, that irene accepts, with a third PMT that is not in use *)
Definition in_use : list pmt_row := filter pm_active IreneProps.ex_pmts.
Definition isi_file : rwf_file :=
  {| h_events := Some [(7%Z, 100%Q); (9%Z, 200%Q)]; h_run := Some [5%Z; 5%Z]; h_pmt := Some [[IreneProps.pulses 8 3; IreneProps.pulses 4 4]; [IreneProps.pulses 1 1; IreneProps.pulses 2 2]]; h_sipm := Some [IreneProps.ex_rs; IreneProps.ex_rs]; h_trg := None; h_chn := None |}.
Definition isi_read : list rwf_event :=
  [{| w_pmt := [IreneProps.pulses 8 3; IreneProps.pulses 4 4]; w_sipm := IreneProps.ex_rs; w_run := 5; w_event := (7%Z, 100%Q); w_trg := None; w_chn := None |};
   {| w_pmt := [IreneProps.pulses 1 1; IreneProps.pulses 2 2]; w_sipm := IreneProps.ex_rs; w_run := 5; w_event := (9%Z, 200%Q); w_trg := None; w_chn := None |}].
Definition isi_shapes : shapes := {| n_pmt := 2; pmt_wl := 400; n_sipm := 3; sipm_wl := 200 |}.
Example C113_hypotheses : wf_from_files (fun _ => isi_file) ["a"%string] = (isi_read, None) /\ forall w, In w isi_read -> good_rwf IreneProps.ex_butter IreneProps.ex_sqrt in_use 1 isi_shapes w.
Proof.
  split; [reflexivity|]. intros w Hw.
  assert (C : forallb (fun w => forallb (fun dw => match deconvolve_one IreneProps.ex_butter IreneProps.ex_sqrt 1 (fst dw) (snd dw) with Ok c => forallb (fun x => Qle_bool (-32768) x && Qle_bool x 32767) c | Err _ => true end) (combine (filter pm_active in_use) (w_pmt w))) isi_read = true) by (vm_compute; reflexivity).
  rewrite forallb_forall in C. specialize (C w Hw). rewrite forallb_forall in C.
  assert (S : len (w_pmt w) = 2 /\ Forall (fun x => len x = 400) (w_pmt w) /\ w_sipm w = IreneProps.ex_rs) by (destruct Hw as [<-|[<-|[]]]; split; try reflexivity; split; try reflexivity; repeat constructor).
  destruct S as (S1 & S2 & S3). split; rewrite ?S3; try assumption; try reflexivity; try (cbn; lia).
  - repeat constructor.
  - intros d Hd _ H. destruct Hd as [<-|[<-|[]]]; discriminate H.
  - intros dw c Hd E. specialize (C dw Hd). rewrite E in C. rewrite forallb_forall in C. apply Forall_forall. intros x Hx. specialize (C x Hx). apply andb_true_iff in C. destruct C as [A B]. apply Qle_bool_iff in A, B. now split.
Qed.
Example C113_example : match isidora IreneProps.ex_butter IreneProps.ex_sqrt in_use 1 isi_shapes (fun _ => isi_file) ["a"%string] with
  | Ok o => map (map (fun l => skipn 19 (firstn 23 l))) (si_cwf o) = [[[0; 10; 4; 2]; [0; 4; 1; 0]]; [[0; 1; 0; 0]; [0; 2; 0; 0]]]%Z /\ si_numbers o = [7; 9]%Z /\ si_in o = 2
  | Err _ => False
  end.
Proof. vm_compute. repeat split. Qed.
(** irene completes a run over these events (C110_irene_ex) *)
Example C113_masked_ex : isidora IreneProps.ex_butter IreneProps.ex_sqrt IreneProps.ex_pmts 1 {| n_pmt := 3; pmt_wl := 400; n_sipm := 3; sipm_wl := 200 |} (fun _ => two_events) ["a"%string] = Err AssertionError.
Proof. reflexivity. Qed.
