(** C110: runs of diomira and irene over files, and of irene over the file of diomira *)
From Coq Require Import String Lia NArith.
From Verif Require ReadModel.
From Verif Require Import Base ConfigModel ConfigSpec ConfigProps TablesModel.
From Verif Require Import PeaksModel PeaksSpec CalibModel CalibSpec IreneModel IreneSpec IreneProps PmapioModel PmapioSpec PmapioProps NoiseModel FeeModel HypaModel HypaSpec TrigModel DioModel DioSpec DioProps
  IrunModel IrunSpec IrunProps PreadModel PreadSpec PreadProps FrunModel FrunSpec.
Local Open Scope nat_scope.
Notation len := List.length.

(** ---- irene ---- *)
Definition as_pair (pm : pmap) : list peak * list peak := (s1s pm, s2s pm).
Lemma peaks_pair pm : nonempty_pmap (as_pair pm) = some_peak pm.
Proof. destruct pm as [[|a l] [|b k]]; reflexivity. Qed.
Lemma has_some pm : some_peak pm = true <-> has_peaks pm.
Proof. unfold some_peak, has_peaks. destruct pm as [[|a l] [|b k]]; cbn; split; intros H; try easy; try (left; discriminate); try (right; discriminate). now destruct H. Qed.

Lemma step_right butter sqrt pmts sipms p ns nss r m w : good_event pmts sipms p ns nss (w_pmt w) (w_sipm w) r m -> selection_fits sipms (cut p) ->
  exists pm, right_step butter sqrt pmts sipms p ns r m w pm /\ irene_step butter sqrt pmts sipms p ns nss (w_pmt w) (w_sipm w) = Ok (option_map as_pair pm).
Proof.
  intros G F. destruct (step_found butter sqrt pmts sipms p ns nss _ _ r m G F) as (xs & css & o & i1 & i2 & H1 & H2 & H3 & H4 & E & H).
  exists (option_map (fun x => {| s1s := fst x; s2s := snd x |}) o). split; [|rewrite E; now destruct o as [[]|]]. exists xs, css, i1, i2. repeat (split; [assumption|]). cbv zeta in *. destruct o as [[a b]|]; exact H.
Qed.
(** a PMap with peaks is one that C104 and C105 speak of *)
Lemma right_written butter sqrt pmts sipms p ns r m w pm : right_step butter sqrt pmts sipms p ns r m w (Some pm) -> some_peak pm = true ->
  right_pmap butter sqrt pmts sipms p ns r m {| re_number := number w; re_time := snd (w_event w); re_pmt := w_pmt w; re_sipm := w_sipm w |} (Some pm).
Proof.
  intros (xs & css & i1 & i2 & H1 & H2 & H3 & H4 & N1 & N2 & P1 & P2) H. exists xs, css, i1, i2. do 4 (split; [assumption|]). cbv zeta. split; [assumption|]. split; [assumption|]. split; [now apply has_some|]. now split.
Qed.

Lemma those_in {E A} (e : E) (a : A) l : In (e, a) (those_with l) <-> In (e, Some a) l.
Proof.
  unfold those_with. rewrite in_flat_map. split.
  - intros ([e' [b|]] & H & Hin); cbn in Hin; [|easy]. destruct Hin as [Eq|[]]. now injection Eq as <- <-.
  - intros H. exists (e, Some a). split; [exact H|now left].
Qed.

Definition trigger_after {W L} (t : trigger_tables) (l : list (waveforms (Z * Q) W L Z (list Z))) : trigger_tables := {| trg_types := trg_types t ++ types_of l; trg_channels := trg_channels t ++ channels_of l |}.
Lemma trigger_stored {W L} n t (w : waveforms (Z * Q) W L Z (list Z)) : channels_fit n w -> store_trigger n t (w_trg w) (w_chn w) = Ok (trigger_after t [w]).
Proof.
  intros H. unfold store_trigger, trigger_after, types_of, channels_of. cbn [flat_map]. rewrite !app_nil_r.
  destruct (w_chn w) as [c|] eqn:E; [rewrite (H c E), Nat.eqb_refl|]; (destruct (w_trg w) as [z|]; [destruct (z =? 0)%Z|]); rewrite ?app_nil_r; reflexivity.
Qed.
Lemma trigger_app {W L} t (a b : list (waveforms (Z * Q) W L Z (list Z))) : trigger_after (trigger_after t a) b = trigger_after t (a ++ b).
Proof. unfold trigger_after, types_of, channels_of. cbn [trg_types trg_channels]. now rewrite !flat_map_app, !app_assoc. Qed.

Lemma all_found {W L} f32 step n (ws : list (waveforms (Z * Q) W L Z (list Z))) pms o t :
  Forall2 (fun iw pm => step (fst iw) (w_pmt (snd iw)) (w_sipm (snd iw)) = Ok (option_map as_pair pm)) (combine (seq (it_in o) (len ws)) ws) pms -> Forall (channels_fit n) ws ->
  store_pmaps f32 (it_pmaps o) (map (fun x => (number (fst x), snd x)) (with_peaks (combine ws pms))) = Ok t ->
  pmaps_all f32 step n ws o =
  Ok {| it_pmaps := t; it_indices := it_indices o ++ map (fun x => (number (fst x), match snd x with Some _ => true | None => false end)) (combine ws pms);
        it_peaks := it_peaks o ++ map (fun x => (number (fst x), some_peak (snd x))) (those_with (combine ws pms));
        it_runs := it_runs o ++ map (fun x => w_run (fst x)) (with_peaks (combine ws pms)); it_events := it_events o ++ map (fun x => w_event (fst x)) (with_peaks (combine ws pms));
        it_trigger := trigger_after (it_trigger o) (map fst (with_peaks (combine ws pms))); it_numbers := it_numbers o ++ map (fun x => number (fst x)) (with_peaks (combine ws pms));
        it_in := it_in o + len ws; it_out := it_out o + len (with_peaks (combine ws pms)) |}.
Proof.
  revert pms o. induction ws as [|w ws IH]; intros pms o F C St.
  - inversion F; subst. cbn in *. injection St as <-. unfold trigger_after. cbn. rewrite !app_nil_r, !Nat.add_0_r. destruct o as [a b c d e [f g] h i j]. reflexivity.
  - cbn [len seq combine] in F. inversion F as [|? pm ? pms' E F']; subst. rename pms' into pms. specialize (fun o' => IH pms o'). cbn [fst snd] in E. inversion C as [|? ? C1 C2]; subst. cbn [pmaps_all]. rewrite E. cbn [rbind combine]. unfold with_peaks, those_with in *. cbn [combine flat_map snd fst] in *. destruct pm as [pm|]; cbn [option_map].
    + rewrite peaks_pair. cbn [app filter snd] in *. destruct (some_peak pm) eqn:Ep.
      * cbn [map store_pmaps fst snd app] in *. unfold as_pair at 1 2. cbn [fst snd]. replace {| s1s := s1s pm; s2s := s2s pm |} with pm by now destruct pm. change (fst (w_event w)) with (number w).
        destruct (store_pmap f32 (it_pmaps o) (number w) pm) as [t'|x] eqn:Es; [|discriminate]. cbn [rbind] in *. rewrite (trigger_stored n _ w C1). cbn [rbind]. rewrite IH by assumption. cbn [it_pmaps it_indices it_peaks it_runs it_events it_trigger it_numbers it_in it_out].
        rewrite trigger_app. cbn [app map fst snd len]. rewrite <- !app_assoc. cbn [app]. rewrite Ep. f_equal. f_equal; lia.
      * rewrite IH by assumption. cbn [it_pmaps it_indices it_peaks it_runs it_events it_trigger it_numbers it_in it_out app map fst snd len]. rewrite <- !app_assoc. cbn [app]. rewrite Ep. unfold number at 1 2. f_equal. f_equal; lia.
    + cbn [app] in *. rewrite IH by assumption. cbn [it_pmaps it_indices it_peaks it_runs it_events it_trigger it_numbers it_in it_out app map fst snd len]. rewrite <- !app_assoc. cbn [app]. f_equal. f_equal; lia.
Qed.

Lemma nodup_those {W L} (ws : list (waveforms (Z * Q) W L Z (list Z))) pms : NoDup (map number ws) -> NoDup (map (fun x => number (fst x)) (with_peaks (combine ws pms))).
Proof.
  revert pms. induction ws as [|w ws IH]; intros [|pm pms] H; try constructor. inversion H as [|? ? N H']; subst. unfold with_peaks, those_with. cbn [combine flat_map]. destruct pm as [pm|]; cbn [snd fst app filter]; [|now apply IH].
  destruct (some_peak pm); [|now apply IH]. cbn [map fst]. constructor; [|now apply IH]. intros Hin. apply N. apply in_map_iff in Hin. destruct Hin as ([e' pm'] & E & Hin). apply filter_In in Hin. destruct Hin as [Hin _]. apply those_in in Hin. apply in_combine_l in Hin. cbn [fst] in E. rewrite <- E. now apply in_map.
Qed.

Lemma tables_done {W L} f32 step n (events : list (waveforms (Z * Q) W L Z (list Z))) pms :
  Forall2 (fun iw pm => step (fst iw) (w_pmt (snd iw)) (w_sipm (snd iw)) = Ok (option_map as_pair pm)) (combine (seq 0 (len events)) events) pms ->
  Forall (channels_fit n) events -> NoDup (map number events) -> (forall w pm, In (w, Some pm) (combine events pms) -> some_peak pm = true -> pmap_ok pm) ->
  exists o, pmaps_all f32 step n events nothing_found = Ok o /\ right_tables f32 events pms o.
Proof.
  intros E Ch ND OkP. set (kept := with_peaks (combine events pms)).
  set (l := map (fun x => {| we_number := number (fst x); we_time := snd (w_event (fst x)); we_pmap := snd x |}) kept).
  assert (Ok_l : forall e, In e l -> pmap_ok (we_pmap e) /\ has_peaks (we_pmap e)).
  { intros x H. apply in_map_iff in H. destruct H as ([w pm] & <- & H). apply filter_In in H. destruct H as [H Hs]. apply those_in in H. cbn [we_pmap snd] in *.
    split; [now apply (OkP w pm)|now apply has_some]. }
  assert (NDl : NoDup (map we_number l)) by (unfold l; rewrite map_map; cbn [we_number]; now apply nodup_those).
  destruct (C13_lazy_reader f32 (map (fun e => (we_number e, we_pmap e)) l) (map we_number l) 0 None) as (t & d & St & _).
  { intros ev pm H. apply in_map_iff in H. destruct H as (e & Eq & H). injection Eq as <- <-. now apply (Ok_l e). }
  { rewrite map_map. cbn [fst]. exact NDl. }
  { intros ev. rewrite in_map_iff. split.
    - intros (e & <- & H). exists (we_pmap e). split; [apply in_map_iff; now exists e|now apply Ok_l].
    - intros (pm & H & _). apply in_map_iff in H. destruct H as (e & Eq & H). injection Eq as <- <-. now exists e. }
  assert (St' : store_pmaps f32 (it_pmaps nothing_found) (map (fun x => (number (fst x), snd x)) (with_peaks (combine events pms))) = Ok t) by (unfold l in St; rewrite map_map in St; exact St).
  pose proof (all_found f32 step n events pms nothing_found t E Ch St') as Run. fold kept in Run. set (o := {| it_pmaps := t |}) in Run.
  assert (X : exists part, pmap_from_files [irene_output o] = (part, None) /\
    Forall2 (fun x it => pi_event it = number (fst x) /\ pi_time it = snd (w_event (fst x)) /\ Some (pi_run it) = head (it_runs o) /\ pi_pmap it = round_pmap f32 (snd x)) kept part).
  { destruct kept as [|k0 kept'] eqn:Ek.
    - exists []. split; [|constructor]. unfold o, irene_output, pmap_from_files, ReadModel.over_files, pmap_from_file. cbn. reflexivity.
    - destruct (file_read f32 (irene_output o) (w_run (fst k0)) l) as (part & Ep & Fp).
      { split; [exists t; split; [exact St|reflexivity]|]. split; [exists (map (fun x => w_run (fst x)) kept'); unfold o, irene_output; reflexivity|].
        split; [unfold o, irene_output, l; cbn [pf_events it_events nothing_found app]; rewrite map_map; cbn [we_number we_time]; f_equal; apply map_ext; intros [w pm]; unfold number; cbn [fst]; now destruct (w_event w)|]. split; [exact NDl|exact Ok_l]. }
      exists part. split; [unfold pmap_from_files, ReadModel.over_files; rewrite Ep; now rewrite app_nil_r|]. clear -Fp. unfold l in Fp. apply F2_map_in in Fp. revert Fp. apply F2_impl. intros x it (_ & H1 & H2 & H3 & H4). cbn [we_number we_time we_pmap] in *.
      split; [assumption|]. split; [assumption|]. split; [|assumption]. rewrite H3. reflexivity. }
  destruct X as (part & Ep & Fp). exists o. split; [exact Run|]. unfold right_tables. cbv zeta. fold kept. unfold o in *. cbn [it_indices it_peaks it_events it_runs it_numbers it_trigger it_in it_out nothing_found trg_types trg_channels trigger_after app Nat.add] in *.
  repeat (split; [reflexivity|]). exists part. split; [exact Ep|exact Fp].
Qed.
(** relations that hold for every event, with or without its place in the run *)
Lemma each_event {E A} (P : nat * E -> A -> Prop) (events : list E) : (forall i w, nth_error events i = Some w -> exists a, P (i, w) a) -> exists l, Forall2 P (combine (seq 0 (len events)) events) l.
Proof.
  intros H. assert (K : forall iw, In iw (combine (seq 0 (len events)) events) -> exists a, P iw a).
  { intros [i w] Hin. apply H. destruct (In_nth_error _ _ Hin) as (k & Hk). assert (Hl : k < len events). { assert (k < len (combine (seq 0 (len events)) events)) by (apply nth_error_Some; congruence). rewrite combine_length, seq_length in H0. lia. }
    destruct (nth_error events k) as [w'|] eqn:Ew; [|apply nth_error_None in Ew; lia]. assert (Es : nth_error (seq 0 (len events)) k = Some k) by (rewrite nth_error_nth' with (d := 0) by (rewrite seq_length; lia); f_equal; rewrite seq_nth; lia).
    rewrite (FeeProps.nth_error_combine _ _ _ _ _ Es Ew) in Hk. now injection Hk as <- <-. }
  revert K. generalize (combine (seq 0 (len events)) events). clear. intros l. induction l as [|a l IH]; intros K; [exists []; constructor|]. destruct IH as (outs & F); [intros; apply K; now right|]. destruct (K a (or_introl eq_refl)) as (out & H). exists (out :: outs). now constructor.
Qed.
Lemma without_places {E A} (P : E -> A -> Prop) (ws : list E) l n : Forall2 (fun iw a => P (snd iw) a) (combine (seq n (len ws)) ws) l -> Forall2 P ws l.
Proof. revert n l. induction ws as [|w ws IH]; intros n l F; cbn [len seq combine] in F; inversion F; subst; constructor; [assumption|]. eapply IH. eassumption. Qed.
Lemma in_events {E A} (P : nat * E -> option A -> Prop) n (ws : list E) outs : Forall2 P (combine (seq n (len ws)) ws) outs -> forall w a, In (w, Some a) (combine ws outs) -> exists i, P (i, w) (Some a).
Proof.
  revert n outs. induction ws as [|w ws IH]; intros n outs F v a Hin; [easy|]. cbn [len seq combine] in F. inversion F as [|? out ? outs' H F']; subst. destruct Hin as [Eq|Hin]; [injection Eq as -> ->; now exists n|]. exact (IH _ _ F' _ _ Hin).
Qed.

Lemma irene_done butter sqrt f32 pmts sipms p ns nss r m events :
  (forall w, In w events -> good_event pmts sipms p ns nss (w_pmt w) (w_sipm w) r m /\ channels_fit (len pmts) w) -> selection_fits sipms (cut p) ->
  NoDup (map number events) -> NoDup (map pm_id (filter pm_active pmts)) -> (N.of_nat ns <= 65536)%N ->
  exists o pms,
    pmaps_all f32 (fun _ => irene_step butter sqrt pmts sipms p ns nss) (len pmts) events nothing_found = Ok o /\
    Forall2 (right_step butter sqrt pmts sipms p ns r m) events pms /\ right_tables f32 events pms o.
Proof.
  intros G F ND NI Hn.
  destruct (each_event (fun iw pm => right_step butter sqrt pmts sipms p ns r m (snd iw) pm /\ irene_step butter sqrt pmts sipms p ns nss (w_pmt (snd iw)) (w_sipm (snd iw)) = Ok (option_map as_pair pm)) events) as (pms & X).
  { intros i w Hw. apply nth_error_In in Hw. exact (step_right butter sqrt pmts sipms p ns nss r m w (proj1 (G w Hw)) F). }
  assert (R : Forall2 (right_step butter sqrt pmts sipms p ns r m) events pms) by (apply (without_places _ _ _ 0); revert X; apply F2_impl; tauto).
  destruct (tables_done f32 (fun _ => irene_step butter sqrt pmts sipms p ns nss) (len pmts) events pms) as (o & Run & T).
  - revert X. apply F2_impl. tauto.
  - apply Forall_forall. intros w Hw. now apply G.
  - exact ND.
  - intros w pm H Hs. destruct (in_events _ _ _ _ X w pm H) as (i & Rw & _). apply (right_ok butter sqrt pmts sipms p ns r m _ pm NI Hn (right_written _ _ _ _ _ _ _ _ _ _ Rw Hs)).
  - now exists o, pms.
Qed.
(** The run *)
Theorem C110_irene butter sqrt f32 pmts sipms p ns nss r m open_file paths events :
  wf_from_files open_file paths = (events, None) ->
  (forall w, In w events -> good_event pmts sipms p ns nss (w_pmt w) (w_sipm w) r m /\ channels_fit (len pmts) w) -> selection_fits sipms (cut p) ->
  NoDup (map number events) -> NoDup (map pm_id (filter pm_active pmts)) -> (N.of_nat ns <= 65536)%N ->
  exists o pms,
    irene f32 (irene_step butter sqrt pmts sipms p ns nss) (len pmts) open_file paths = Ok o /\
    Forall2 (right_step butter sqrt pmts sipms p ns r m) events pms /\ right_tables f32 events pms o.
Proof.
  intros Rd G F ND NI Hn. destruct (irene_done butter sqrt f32 pmts sipms p ns nss r m events G F ND NI Hn) as (o & pms & Run & H). exists o, pms. split; [|exact H]. unfold irene, pmaps_of_files. rewrite Rd, Run. reflexivity.
Qed.
Print Assumptions C110_irene.
(** a file that cannot be read ends the run, whatever the events before it are *)
Theorem C110_stopped butter sqrt f32 pmts sipms p ns nss r m open_file paths events e :
  wf_from_files open_file paths = (events, Some e) ->
  (forall w, In w events -> good_event pmts sipms p ns nss (w_pmt w) (w_sipm w) r m /\ channels_fit (len pmts) w) -> selection_fits sipms (cut p) ->
  NoDup (map number events) -> NoDup (map pm_id (filter pm_active pmts)) -> (N.of_nat ns <= 65536)%N ->
  irene f32 (irene_step butter sqrt pmts sipms p ns nss) (len pmts) open_file paths = Err e.
Proof.
  intros Rd G F ND NI Hn. destruct (irene_done butter sqrt f32 pmts sipms p ns nss r m events G F ND NI Hn) as (o & pms & Run & _). unfold irene, pmaps_of_files. rewrite Rd, Run. reflexivity.
Qed.
Print Assumptions C110_stopped.

(** ---- diomira ---- *)
Notation counts := (list (list Z) * list (list Z) * list (list Z))%type.
Section Diomira.
  Variables (butter : Q -> Q * Q * Q) (sqrt : Q -> Q) (e : electronics) (rn : nat -> randoms) (db : list dio_row) (sipms : list sim_row) (noise_cut : Q) (padding : nat) (t : option (bool * trig_conf)) (ns nss : nat).
  (** diomira_event for the event number [i] of the run *)
  Definition event_of (i : nat) (pmtrd sipmrd : list (list Q)) : result (option counts) :=
    diomira_event butter sqrt e (rn_pmt (rn i)) (rn_sipm (rn i)) (rn_noise (rn i)) db sipms noise_cut padding t (len db) ns (len sipms) nss pmtrd sipmrd (rn_dark (rn i)).
  Lemma event_simulated i w : ns mod 25 = 0 -> good_light butter sqrt e db sipms t ns nss (rn i) w ->
    exists out, event_of i (w_pmt w) (w_sipm w) = Ok out /\ simulated butter sqrt e db sipms noise_cut padding t ns nss (rn i) w out.
  Proof using Type.
    intros Hns (G & F1 & F2 & T). destruct G. destruct (pmts_simulated e (rn_pmt (rn i)) (rn_noise (rn i)) db ns (w_pmt w)) as (rwf & blr & E & L1 & L2 & K1 & K2 & P); try assumption. destruct (T _ _ E) as (b & Eb).
    unfold event_of, diomira_event. rewrite E. cbn [rbind]. rewrite Eb. cbn [rbind]. destruct b; cbn [negb].
    - destruct (sipms_stored (rn_sipm (rn i)) sipms noise_cut padding nss (rn_dark (rn i)) (w_sipm w)) as (wfs & rs & E1 & E2 & L3 & K3 & (L4 & K4) & C); try assumption. rewrite E1. cbn [rbind].
      rewrite (table_fits rwf), (table_fits blr), (table_fits wfs) by assumption. cbn [negb]. rewrite E2. cbn [rbind]. exists (Some (rwf, blr, rs)). split; [reflexivity|]. exists rwf, blr. repeat (split; [assumption|]). split; [reflexivity|]. split; [reflexivity|]. now repeat (split; [assumption|]).
    - exists None. split; [reflexivity|]. exists rwf, blr. now repeat (split; [assumption|]).
  Qed.
End Diomira.

Lemma all_simulated event ws outs o : Forall2 (fun iw out => event (fst iw) (w_pmt (snd iw)) (w_sipm (snd iw)) = Ok out) (combine (seq (dt_in o) (len ws)) ws) outs ->
  diomira_all event ws o =
  Ok {| dt_filter := dt_filter o ++ map (fun x => (fst (w_event (fst x)), match snd x with Some _ => true | None => false end)) (combine ws outs);
        dt_runs := dt_runs o ++ map (fun x => w_run (fst x)) (those_with (combine ws outs)); dt_events := dt_events o ++ map (fun x => w_event (fst x)) (those_with (combine ws outs));
        dt_rwf := dt_rwf o ++ map (fun x => fst (fst (snd x))) (those_with (combine ws outs)); dt_blr := dt_blr o ++ map (fun x => snd (fst (snd x))) (those_with (combine ws outs));
        dt_sipm := dt_sipm o ++ map (fun x => snd (snd x)) (those_with (combine ws outs)); dt_numbers := dt_numbers o ++ map (fun x => fst (w_event (fst x))) (those_with (combine ws outs));
        dt_in := dt_in o + len ws; dt_passed := dt_passed o + len (those_with (combine ws outs)) |}.
Proof.
  revert outs o. induction ws as [|w ws IH]; intros outs o F.
  - inversion F; subst. cbn. rewrite !app_nil_r, !Nat.add_0_r. now destruct o.
  - cbn [len seq combine] in F. inversion F as [|? out ? outs' E F']; subst. cbn [fst snd] in E. cbn [diomira_all]. rewrite E. cbn [rbind]. unfold those_with in *.
    destruct out as [[[rwf blr] sipm]|]; (rewrite (IH outs') by exact F'); cbn [dt_filter dt_runs dt_events dt_rwf dt_blr dt_sipm dt_numbers dt_in dt_passed combine map flat_map fst snd app len]; rewrite <- ?app_assoc; cbn [app]; f_equal; f_equal; lia.
Qed.

Section Run.
  Variables (butter : Q -> Q * Q * Q) (sqrt : Q -> Q) (e : electronics) (rn : nat -> randoms) (db : list dio_row) (sipms : list sim_row) (noise_cut : Q) (padding : nat) (t : option (bool * trig_conf)) (ns nss : nat).
  Let event := event_of butter sqrt e rn db sipms noise_cut padding t ns nss.
  (** The run of diomira: every event in the table of the trigger, with its decision; those that pass, with their waveforms, in all the other tables *)
  Theorem C110_diomira open_file paths events :
    wf_from_files open_file paths = (events, None) -> ns mod 25 = 0 -> (forall i w, nth_error events i = Some w -> good_light butter sqrt e db sipms t ns nss (rn i) w) ->
    exists o outs, diomira event open_file paths = Ok o /\
      Forall2 (fun iw out => simulated butter sqrt e db sipms noise_cut padding t ns nss (rn (fst iw)) (snd iw) out) (combine (seq 0 (len events)) events) outs /\
      let kept := those_with (combine events outs) in
      dt_filter o = map (fun x => (fst (w_event (fst x)), match snd x with Some _ => true | None => false end)) (combine events outs) /\
      dt_events o = map (fun x => w_event (fst x)) kept /\ dt_runs o = map (fun x => w_run (fst x)) kept /\ dt_numbers o = map (fun x => fst (w_event (fst x))) kept /\
      dt_rwf o = map (fun x => fst (fst (snd x))) kept /\ dt_blr o = map (fun x => snd (fst (snd x))) kept /\ dt_sipm o = map (fun x => snd (snd x)) kept /\
      dt_in o = len events /\ dt_passed o = len kept.
  Proof using Type.
    intros Rd Hns G.
    assert (X : exists outs, Forall2 (fun iw out => event (fst iw) (w_pmt (snd iw)) (w_sipm (snd iw)) = Ok out /\ simulated butter sqrt e db sipms noise_cut padding t ns nss (rn (fst iw)) (snd iw) out) (combine (seq 0 (len events)) events) outs).
    { apply each_event. intros i w Hw. cbn [fst snd]. apply event_simulated; [exact Hns|]. now apply G. }
    destruct X as (outs & F). pose proof (all_simulated event events outs nothing_simulated) as Run. cbn [dt_in nothing_simulated] in Run. assert (F1 : Forall2 (fun iw out => event (fst iw) (w_pmt (snd iw)) (w_sipm (snd iw)) = Ok out) (combine (seq 0 (len events)) events) outs) by (revert F; apply F2_impl; tauto).
    specialize (Run F1). eexists. exists outs. split; [unfold diomira; rewrite Rd, Run; reflexivity|]. split; [revert F; apply F2_impl; tauto|]. cbn [dt_filter dt_runs dt_events dt_rwf dt_blr dt_sipm dt_numbers dt_in dt_passed nothing_simulated app Nat.add]. repeat split.
  Qed.
End Run.
Print Assumptions C110_diomira.

(** ---- irene over the file of diomira ---- *)
Lemma zip_kept run (kept : list (mcrd_event * counts)) :
  zip5 run (map (fun x => fst (fst (snd x))) kept) (map (fun x => snd (snd x)) kept) (map (fun x => w_event (fst x)) kept) (@None (list Z)) (@None (list (list Z))) = map (in_file run) kept.
Proof. induction kept as [|x kept IH]; [reflexivity|]. cbn. now rewrite IH. Qed.
Lemma file_of_diomira o name (kept : list (mcrd_event * counts)) : dt_events o = map (fun x => w_event (fst x)) kept -> dt_runs o = map (fun x => w_run (fst x)) kept ->
  dt_rwf o = map (fun x => fst (fst (snd x))) kept -> dt_sipm o = map (fun x => snd (snd x)) kept ->
  wf_from_files (fun _ => diomira_file o) [name] = match kept with [] => ([], Some IndexError) | x :: _ => (map (in_file (w_run (fst x))) kept, None) end.
Proof.
  intros E1 E2 E3 E4. unfold wf_from_files, wf_from_file, diomira_file. cbn [h_events h_run h_pmt h_sipm h_trg h_chn]. rewrite E1, E2, E3, E4. destruct kept as [|x kept]; [reflexivity|]. cbn [map].
  replace (all_equal _) with true; [|cbn [all_equal app known_length len]; rewrite !map_length; cbn [Nat.eqb]; now rewrite !Nat.eqb_refl].
  change (?a :: map ?f kept) with (map f (x :: kept)) at 1. rewrite app_nil_r. f_equal. exact (zip_kept (w_run (fst x)) (x :: kept)).
Qed.
