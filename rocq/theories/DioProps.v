(** C102: what diomira writes of an event *)
From Coq Require Import Qround.
From Verif Require Import Base Arrays PeaksModel PeaksProofs WfmModel WfmSpec WfmProps NoiseModel NoiseProps CalibModel BuffersModel FeeModel FeeProps DetsimModel DetsimNumbers FiltersModel.
From Verif Require DbThr.
From Verif Require Import IreneModel IreneSpec IreneProofs HypaModel HypaSpec HypaProofs TrigModel DioModel DioSpec.
Local Open Scope nat_scope.

Lemma trunc_whole x : whole_part x (Qtrunc x).
Proof.
  unfold whole_part, Qtrunc. destruct (Qltb_spec x 0) as [C|C]; split; intros H; try lra.
  - pose proof (Qle_ceiling x). pose proof (Qceiling_lt x) as B. unfold Z.sub in B. rewrite inject_Z_plus in B. change (inject_Z (- (1))) with (-1)%Q in B. lra.
  - pose proof (Qfloor_le x). pose proof (Qlt_floor x) as B. rewrite inject_Z_plus in B. split; [assumption|exact B].
Qed.
Lemma store_ok x : (-32768 <= x <= 32767)%Q -> exists z, store_float x = Ok z /\ whole_part x z.
Proof.
  intros [H1 H2]. unfold store_float. pose proof (trunc_whole x) as W. set (z := Qtrunc x) in *. exists z. split; [|exact W]. destruct W as [W1 W2].
  assert (A : (inject_Z (-32769) < inject_Z z)%Q /\ (inject_Z z < inject_Z 32768)%Q).
  { change (inject_Z (-32769)) with (-32769)%Q. change (inject_Z 32768) with 32768%Q. destruct (Qlt_le_dec x 0) as [C|C]; [specialize (W2 C)|specialize (W1 C)]; lra. }
  rewrite <- !Zlt_Qlt in A. destruct (Z.ltb_spec z (-32768)); [lia|]. destruct (Z.ltb_spec 32767 z); [lia|]. reflexivity.
Qed.
Lemma store_zero : store_float 0 = Ok 0%Z.
Proof. reflexivity. Qed.

Section Sipms.
  Variables (cut : Q) (padding nss : nat).
  Lemma one_stored draw d n w : length w = nss -> length n = nss ->
    (forall fl j, fluctuated draw (pe_resolution d) w fl -> j < length w -> (-32768 <= nth j fl 0 * sm_gain (ss_row d) + nth j n 0 <= 32767)%Q) ->
    exists z, rmap store_float (suppress_wf (simulate_sipm draw (pe_resolution d) (sm_gain (ss_row d)) n w) (suppression_thr cut d) padding) = Ok z /\
      sipm_counts draw d cut padding n w z.
  Proof using All.
    intros Lw Ln Fit. set (fl := charge_fluctuation draw (pe_resolution d) w). pose proof (fluctuation_ok draw (pe_resolution d) w) as Ffl. fold fl in Ffl. assert (Lfl : length fl = nss) by (rewrite <- Lw; apply Ffl).
    set (adc := simulate_sipm draw (pe_resolution d) (sm_gain (ss_row d)) n w). assert (Ladc : length adc = nss) by (unfold adc, simulate_sipm; fold fl; rewrite length_map2_eq; congruence).
    assert (Nadc : forall j, j < nss -> nth j adc 0%Q = (nth j fl 0 * sm_gain (ss_row d) + nth j n 0)%Q) by (intros j Hj; unfold adc, simulate_sipm; fold fl; rewrite nth_map2 with (da := 0%Q) (db := 0%Q) by congruence; reflexivity).
    destruct (C27_zero_suppression adc (suppression_thr cut d) padding) as [Ls Ks]. set (sup := suppress_wf adc (suppression_thr cut d) padding) in *.
    assert (Pt : forall j, j < nss -> nth j sup 0%Q = 0%Q \/ nth j sup 0%Q = nth j adc 0%Q).
    { intros j Hj. unfold sup, suppress_wf. destruct (pad_signal_spec adc (suppression_thr cut d) padding) as [L _]. rewrite nth_map2 with (da := false) (db := 0%Q) by (rewrite ?L; congruence). destruct (nth j _ false); auto. }
    destruct (rmap_Forall2 store_float sup) as (z & E & F).
    { intros x Hx. destruct (In_nth _ _ 0%Q Hx) as (j & Hj & <-). rewrite Ls, Ladc in Hj. destruct (Pt j Hj) as [-> | ->]; [now exists 0%Z|]. rewrite Nadc by assumption.
      destruct (store_ok (nth j fl 0 * sm_gain (ss_row d) + nth j n 0)%Q) as (z & Hz & _); [|now exists z]. apply Fit; [assumption|lia]. }
    exists z. split; [exact E|]. exists fl, adc. split; [exact Ffl|]. assert (Lz : length z = nss) by (rewrite <- (Forall2_len _ _ _ F); congruence). split; [congruence|]. split; [congruence|]. split; [intros j Hj; rewrite Nadc by congruence; reflexivity|].
    intros j Hj. rewrite Lw in Hj. assert (D : store_float (nth j sup 0%Q) = Ok (nth j z 0%Z)). { clear -F Hj Lz. assert (Hj' : j < length z) by lia. clear Hj Lz. revert j Hj'. induction F as [|x y l l' Hx F IH]; intros [|j] Hj; cbn in *; try lia; [assumption|]. apply IH. lia. }
    destruct (Ks j ltac:(lia)) as [K1 K2]. split; intros K.
    - rewrite K1 in D by exact K. destruct (store_ok (nth j adc 0%Q)) as (z' & D' & N); [rewrite Nadc by assumption; apply Fit; [assumption|lia]|]. congruence.
    - rewrite K2 in D by exact K. rewrite store_zero in D. congruence.
  Qed.
End Sipms.

Lemma sipms_stored draw sipms cut padding nss noise light :
  length light = length sipms -> length noise = length sipms -> Forall (fun w => length w = nss) light -> Forall (fun w => length w = nss) noise ->
  counts_fit draw sipms light noise ->
  exists wfs rs, simulate_sipms draw sipms cut padding noise light = Ok wfs /\ rmap (rmap store_float) wfs = Ok rs /\ length rs = length sipms /\ Forall (fun z => length z = nss) rs /\
    (length wfs = length sipms /\ Forall (fun z => length z = nss) wfs) /\
    forall s d n w, nth_error sipms s = Some d -> nth_error noise s = Some n -> nth_error light s = Some w -> exists z, nth_error rs s = Some z /\ sipm_counts (draw s) d cut padding n w z.
Proof.
  intros L1 L2 F1 F2 Fit. unfold simulate_sipms. rewrite L1, L2, Nat.eqb_refl. cbn [negb orb]. eexists.
  enough (G : exists rs, rmap (rmap store_float) (noise_suppression (mapi (fun s '(d, (n, w)) => simulate_sipm (draw s) (pe_resolution d) (sm_gain (ss_row d)) n w) (combine sipms (combine noise light))) (map (suppression_thr cut) sipms) (map (fun _ => padding) sipms)) = Ok rs /\
    length rs = length sipms /\ Forall (fun z => length z = nss) rs /\
    forall s d n w, nth_error sipms s = Some d -> nth_error noise s = Some n -> nth_error light s = Some w -> exists z, nth_error rs s = Some z /\ sipm_counts (draw s) d cut padding n w z).
  { destruct G as (rs & G1 & G2 & G3 & G4). exists rs. split; [reflexivity|]. split; [exact G1|]. split; [exact G2|]. split; [exact G3|]. split; [|exact G4].
    assert (R : Forall2 (fun a b => length a = length b) (noise_suppression (mapi (fun s '(d, (n, w)) => simulate_sipm (draw s) (pe_resolution d) (sm_gain (ss_row d)) n w) (combine sipms (combine noise light))) (map (suppression_thr cut) sipms) (map (fun _ => padding) sipms)) rs).
    { revert G1. generalize (noise_suppression (mapi (fun s '(d, (n, w)) => simulate_sipm (draw s) (pe_resolution d) (sm_gain (ss_row d)) n w) (combine sipms (combine noise light))) (map (suppression_thr cut) sipms) (map (fun _ => padding) sipms)). clear. intros l. revert rs.
      assert (H : forall (x : list Q) rs, rmap store_float x = Ok rs -> length x = length rs) by (intros x rs H; symmetry; exact (proj1 (DbThr.rmap_nth_ok _ _ _ H))).
      induction l as [|x l IH]; intros rs E; cbn in E; [injection E as <-; constructor|]. destruct (rmap store_float x) eqn:Ex; [|discriminate]. cbn in E. destruct (rmap (rmap store_float) l) eqn:El; [|discriminate]. injection E as <-. constructor; [now apply H|now apply IH]. }
    split; [now rewrite (Forall2_len _ _ _ R)|]. clear -R G3. induction R as [|x y l rs E R IH]; [constructor|]. inversion G3; subst. constructor; [assumption|now apply IH]. }
  revert draw noise light L1 L2 F1 F2 Fit. induction sipms as [|d sipms IH]; intros draw [|n noise] [|w light] L1 L2 F1 F2 Fit; try easy.
  - exists []. repeat split; [constructor|]. intros [|s]; easy.
  - inversion F1 as [|? ? Lw F1']; subst. inversion F2 as [|? ? Ln F2']; subst. cbn [length] in L1, L2. unfold mapi at 1. cbn [combine mapi_from map]. unfold noise_suppression. cbn [map3 rmap].
    destruct (one_stored cut padding (length w) (draw 0) d n w) as (z & Ez & Rz); [reflexivity|assumption|intros fl j Hf Hj; exact (Fit 0 d w n fl j eq_refl eq_refl eq_refl Hf Hj)|]. rewrite Ez. cbn [rbind].
    rewrite mapi_from_shift. destruct (IH (fun s => draw (S s)) noise light) as (rs & E & L & F & P); try lia; try assumption.
    { intros s d' w' n' fl j H1 H2 H3. exact (Fit (S s) d' w' n' fl j H1 H2 H3). }
    cbn [Nat.add]. unfold noise_suppression in E. rewrite E. exists (z :: rs). split; [reflexivity|]. split; [cbn; lia|]. split; [constructor; [|assumption]|].
    { destruct Rz as (fl & adc & _ & _ & Lz & _). exact Lz. }
    intros [|s] d' n' w' H1 H2 H3; cbn [nth_error] in *; [|now apply P]. injection H1 as <-. injection H2 as <-. injection H3 as <-. now exists z.
Qed.

Lemma counts_of l : Forall sixteen_bits l -> exists z, rmap discretize l = Ok z /\ Forall2 nearest l z.
Proof.
  induction l as [|x l IH]; intros F; [exists []; split; constructor|]. inversion F as [|? ? H F']; subst. destruct (discretize_ok x H) as (z & E & N). destruct (IH F') as (zs & Es & Ns). exists (z :: zs). cbn [rmap]. rewrite E. cbn [rbind]. rewrite Es. split; [reflexivity|now constructor].
Qed.

Section Pmts.
  Variable e : electronics.
  Variable draw : nat -> nat -> Q -> Q.
  Variable noise : nat -> pmt_noise.
  Lemma pmts_simulated db ns pmtrd : scale e = 25 -> 2 <= length (spe e) <= ns -> ns mod 25 = 0 -> length pmtrd = length db -> Forall (fun w => length w = ns) pmtrd ->
    (forall i, i < length db -> noise_fits ns (noise i)) -> pmt_counts_fit e draw noise db pmtrd ->
    exists rwf blr, simulate_pmts e draw noise db pmtrd = Ok (rwf, blr) /\ length rwf = length db /\ length blr = length db /\ Forall (fun w => length w = ns / 25) rwf /\ Forall (fun w => length w = ns / 25) blr /\
      forall i d w, nth_error db i = Some d -> nth_error pmtrd i = Some w -> exists zr zb, nth_error rwf i = Some zr /\ nth_error blr i = Some zb /\ pmt_counts e (draw i) i d (noise i) w zr zb.
  Proof using Type.
    intros Hs Hspe Hns L FL HN Fit. unfold simulate_pmts.
    set (one := fun iw rb => exists d r b zr zb, nth_error db (fst iw) = Some d /\ simulate_one e draw noise db iw = Ok (r, b) /\ rb = (r, b) /\ rmap discretize r = Ok zr /\ rmap discretize b = Ok zb /\
      length zr = ns / 25 /\ length zb = ns / 25 /\ pmt_counts e (draw (fst iw)) (fst iw) d (noise (fst iw)) (snd iw) zr zb).
    assert (A : forall iw, In iw (combine (seq 0 (length pmtrd)) pmtrd) -> exists rb, simulate_one e draw noise db iw = Ok rb /\ one iw rb).
    { intros [i w] Hiw. destruct (In_nth_error _ _ Hiw) as (k & Hk). assert (Hk2 : k < length pmtrd). { assert (k < length (combine (seq 0 (length pmtrd)) pmtrd)) by (apply nth_error_Some; congruence). rewrite combine_length, seq_length in H. lia. }
      destruct (nth_error pmtrd k) as [w'|] eqn:Ew; [|apply nth_error_None in Ew; lia]. assert (Es : nth_error (seq 0 (length pmtrd)) k = Some k) by (rewrite nth_error_nth' with (d := 0) by (rewrite seq_length; lia); f_equal; rewrite seq_nth; lia).
      rewrite (FeeProps.nth_error_combine _ _ _ _ _ Es Ew) in Hk. injection Hk as <- <-. destruct (nth_error db k) as [d|] eqn:Ed; [|apply nth_error_None in Ed; lia].
      assert (Lw : length w' = ns). { rewrite Forall_forall in FL. apply FL. eapply nth_error_In; eassumption. }
      pose proof (fluctuation_ok (draw k) (pmt_resolution d) w') as Ffl. set (fl := charge_fluctuation (draw k) (pmt_resolution d) w') in *. assert (Lfl : length fl = ns) by (rewrite <- Lw; apply Ffl).
      destruct (HN k ltac:(lia)) as (N1 & N2 & N3).
      destruct (C79_length e k (dp_gain d) fl (n_in (noise k)) (n_daq (noise k)) (n_low (noise k))) as [C _]; rewrite ?Lfl; try lia.
      { unfold noises_fit, buffer_length. rewrite Hs. replace (ns + 25 - 1) with (ns + 24) by lia. now repeat split. }
      rewrite Lfl, Hs in C. destruct (C Hns) as (r & b & E & Lr & Lb). destruct (Fit k d w' r b Ed Ew E) as [F1 F2]. destruct (counts_of r F1) as (zr & Er & Nr). destruct (counts_of b F2) as (zb & Eb & Nb).
      assert (Eo : simulate_one e draw noise db (k, w') = Ok (r, b)) by (unfold simulate_one; cbn [fst snd]; rewrite Ed; exact E).
      exists (r, b). split; [exact Eo|]. exists d, r, b, zr, zb. cbn [fst snd]. rewrite <- (Forall2_len _ _ _ Nr), <- (Forall2_len _ _ _ Nb). repeat split; try assumption. exists fl, r, b. repeat split; try assumption; apply Ffl. }
    assert (B : exists l, rmap (simulate_one e draw noise db) (combine (seq 0 (length pmtrd)) pmtrd) = Ok l /\ Forall2 one (combine (seq 0 (length pmtrd)) pmtrd) l).
    { revert A. generalize (combine (seq 0 (length pmtrd)) pmtrd). clear. induction l as [|iw l IH]; intros A; [exists []; split; constructor|]. destruct (A iw (or_introl eq_refl)) as (rb & E & O). destruct IH as (l' & E' & F); [intros; apply A; now right|]. exists (rb :: l'). cbn [rmap]. rewrite E. cbn [rbind]. rewrite E'. split; [reflexivity|now constructor]. }
    destruct B as (l & El & F). rewrite El. cbn [rbind].
    assert (G : exists rwf blr, rmap (rmap discretize) (map fst l) = Ok rwf /\ rmap (rmap discretize) (map snd l) = Ok blr /\
      Forall2 (fun iw zz => length (fst zz) = ns / 25 /\ length (snd zz) = ns / 25 /\ exists d, nth_error db (fst iw) = Some d /\ pmt_counts e (draw (fst iw)) (fst iw) d (noise (fst iw)) (snd iw) (fst zz) (snd zz)) (combine (seq 0 (length pmtrd)) pmtrd) (combine rwf blr) /\
      length rwf = length l /\ length blr = length l).
    { clear -F. induction F as [|iw rb c l O F IH]; [exists [], []; repeat split; constructor|]. destruct IH as (rwf & blr & E1 & E2 & F2 & L1 & L2). destruct O as (d & r & b & zr & zb & O1 & _ & -> & O3 & O4 & O5 & O6 & O7).
      exists (zr :: rwf), (zb :: blr). cbn [map fst snd rmap combine length]. rewrite O3, O4. cbn [rbind]. rewrite E1, E2. repeat split; try congruence. constructor; [|assumption]. cbn [fst snd]. split; [assumption|]. split; [assumption|]. now exists d. }
    destruct G as (rwf & blr & E1 & E2 & F2 & L1 & L2). rewrite E1, E2. cbn [rbind]. exists rwf, blr. split; [reflexivity|]. pose proof (Forall2_len _ _ _ F) as Ll. rewrite combine_length, seq_length in Ll.
    split; [lia|]. split; [lia|].
    assert (P : forall i zr zb, nth_error rwf i = Some zr -> nth_error blr i = Some zb -> length zr = ns / 25 /\ length zb = ns / 25 /\ exists d w, nth_error db i = Some d /\ nth_error pmtrd i = Some w /\ pmt_counts e (draw i) i d (noise i) w zr zb).
    { intros i zr zb Hr Hb. pose proof (FeeProps.nth_error_combine _ _ _ _ _ Hr Hb) as Hc. assert (Hi : i < length pmtrd) by (assert (i < length rwf) by (apply nth_error_Some; congruence); lia).
      destruct (nth_error pmtrd i) as [w|] eqn:Ew; [|apply nth_error_None in Ew; lia]. assert (Es : nth_error (seq 0 (length pmtrd)) i = Some i) by (rewrite nth_error_nth' with (d := 0) by (rewrite seq_length; lia); f_equal; rewrite seq_nth; lia).
      pose proof (FeeProps.nth_error_combine _ _ _ _ _ Es Ew) as Hiw. revert F2 Hiw Hc. generalize (combine (seq 0 (length pmtrd)) pmtrd), (combine rwf blr). clear. intros a b F2. intros H1 H2.
      assert (Z : exists d, length zr = ns / 25 /\ length zb = ns / 25 /\ nth_error db i = Some d /\ pmt_counts e (draw i) i d (noise i) w zr zb).
      { assert (X : forall k, nth_error a k = Some (i, w) -> nth_error b k = Some (zr, zb) -> exists d, length zr = ns / 25 /\ length zb = ns / 25 /\ nth_error db i = Some d /\ pmt_counts e (draw i) i d (noise i) w zr zb); [|exact (X i H1 H2)].
        clear H1 H2. induction F2 as [|iw zz a b H F2 IH]; intros [|k] H1 H2; cbn in H1, H2; try discriminate; [|now apply (IH k)]. injection H1 as ->. injection H2 as ->. cbn [fst snd] in H. destruct H as (A & B & d & C & D). now exists d. }
      destruct Z as (d & Z1 & Z2 & Z3 & Z4). split; [assumption|]. split; [assumption|]. exists d, w. now repeat split. }
    split; [|split].
    - apply Forall_forall. intros zr Hr. destruct (In_nth_error _ _ Hr) as (i & Hi). destruct (nth_error blr i) as [zb|] eqn:Eb; [|apply nth_error_None in Eb; assert (i < length rwf) by (apply nth_error_Some; congruence); lia]. now apply (P i zr zb).
    - apply Forall_forall. intros zb Hb. destruct (In_nth_error _ _ Hb) as (i & Hi). destruct (nth_error rwf i) as [zr|] eqn:Er; [|apply nth_error_None in Er; assert (i < length blr) by (apply nth_error_Some; congruence); lia]. now apply (P i zr zb).
    - intros i d w Hd Hw. assert (Hi : i < length db) by (apply nth_error_Some; congruence). destruct (nth_error rwf i) as [zr|] eqn:Er; [|apply nth_error_None in Er; lia]. destruct (nth_error blr i) as [zb|] eqn:Eb; [|apply nth_error_None in Eb; lia].
      destruct (P i zr zb Er Eb) as (_ & _ & d' & w' & Hd' & Hw' & PC). exists zr, zb. split; [reflexivity|]. split; [reflexivity|]. congruence.
  Qed.
End Pmts.

Lemma table_fits {A} (m : list (list A)) n len : length m = n -> Forall (fun w => length w = len) m -> fits_table n len m = true.
Proof. intros L F. unfold fits_table. apply Nat.eqb_eq. subst n. induction F as [|w m H F IH]; [reflexivity|]. cbn [map sumN fold_right length] in *. unfold sumN in IH. cbn. rewrite IH. lia. Qed.

(** An event of diomira: every PMT gets the two waveforms that follow from its own light, the decision is the trigger's on these waveforms, and the waveforms are written if it passes. *)
Theorem C102_event butter sqrt e draw_pmt draw_sipm noise db sipms noise_cut padding t ns nss pmtrd sipmrd sipm_noise :
  good_mc e noise db sipms ns nss pmtrd sipmrd sipm_noise -> ns mod 25 = 0 -> pmt_counts_fit e draw_pmt noise db pmtrd -> counts_fit draw_sipm sipms sipmrd sipm_noise ->
  exists rwf blr, length rwf = length db /\ length blr = length db /\ Forall (fun w => length w = ns / 25) rwf /\ Forall (fun w => length w = ns / 25) blr /\
    (forall i d w, nth_error db i = Some d -> nth_error pmtrd i = Some w -> exists zr zb, nth_error rwf i = Some zr /\ nth_error blr i = Some zb /\ pmt_counts e (draw_pmt i) i d (noise i) w zr zb) /\
    match trigger_decision butter sqrt (map dp_row db) t rwf with
    | Err x => diomira_event butter sqrt e draw_pmt draw_sipm noise db sipms noise_cut padding t (length db) ns (length sipms) nss pmtrd sipmrd sipm_noise = Err x
    | Ok false => diomira_event butter sqrt e draw_pmt draw_sipm noise db sipms noise_cut padding t (length db) ns (length sipms) nss pmtrd sipmrd sipm_noise = Ok None
    | Ok true => exists counts, diomira_event butter sqrt e draw_pmt draw_sipm noise db sipms noise_cut padding t (length db) ns (length sipms) nss pmtrd sipmrd sipm_noise = Ok (Some (rwf, blr, counts)) /\
        length counts = length sipms /\ Forall (fun w => length w = nss) counts /\
        forall s d n w, nth_error sipms s = Some d -> nth_error sipm_noise s = Some n -> nth_error sipmrd s = Some w -> exists z, nth_error counts s = Some z /\ sipm_counts (draw_sipm s) d noise_cut padding n w z
    end.
Proof.
  intros G Hns F1 F2. destruct G. destruct (pmts_simulated e draw_pmt noise db ns pmtrd) as (rwf & blr & E & L1 & L2 & K1 & K2 & P); try assumption.
  exists rwf, blr. split; [exact L1|]. split; [exact L2|]. split; [exact K1|]. split; [exact K2|]. split; [exact P|]. unfold diomira_event. rewrite E. cbn [rbind].
  destruct (trigger_decision butter sqrt (map dp_row db) t rwf) as [[]|x]; cbn [rbind negb]; [|reflexivity|reflexivity].
  destruct (sipms_stored draw_sipm sipms noise_cut padding nss sipm_noise sipmrd) as (wfs & rs & E1 & E2 & L3 & K3 & (L4 & K4) & S); try assumption. rewrite E1. cbn [rbind].
  rewrite (table_fits rwf), (table_fits blr), (table_fits wfs) by assumption. cbn [negb]. rewrite E2. cbn [rbind]. exists rs. now repeat split.
Qed.
Print Assumptions C102_event.

(** light for a time that is not a whole number of samples of the PMTs cannot be simulated *)
Theorem C102_length butter sqrt e draw_pmt draw_sipm noise db sipms noise_cut padding t ns nss pmtrd sipmrd sipm_noise :
  good_mc e noise db sipms ns nss pmtrd sipmrd sipm_noise -> ns mod 25 <> 0 -> db <> [] ->
  diomira_event butter sqrt e draw_pmt draw_sipm noise db sipms noise_cut padding t (length db) ns (length sipms) nss pmtrd sipmrd sipm_noise = Err ValueError.
Proof.
  intros G Hns Hdb. destruct G. destruct db as [|d db]; [easy|]. destruct pmtrd as [|w pmtrd]; [discriminate|]. unfold diomira_event, simulate_pmts. cbn [length seq combine rmap]. unfold simulate_one at 1. cbn [fst snd nth_error]. unfold simulate_pmt.
  pose proof (fluctuation_ok (draw_pmt 0) (pmt_resolution d) w) as [Lfl _]. set (fl := charge_fluctuation (draw_pmt 0) (pmt_resolution d) w) in *. inversion gm_len as [|? ? Lw _]; subst. destruct (gm_noise 0 ltac:(cbn; lia)) as (N1 & N2 & N3).
  destruct (C79_length e 0 (dp_gain d) fl (n_in (noise 0)) (n_daq (noise 0)) (n_low (noise 0))) as [_ C]; rewrite ?Lfl; try lia.
  { unfold noises_fit, buffer_length. rewrite gm_scale. replace (length w + 25 - 1) with (length w + 24) by lia. now repeat split. }
  rewrite Lfl, gm_scale in C. rewrite (C Hns). reflexivity.
Qed.
Print Assumptions C102_length.

Lemma run_from {E} (event : E -> result (option (list (list Z) * list (list Z) * list (list Z)))) events outs out : Forall2 (fun ev r => event (snd ev) = Ok r) events outs ->
  diomira_run event events out =
  Ok {| do_filter := do_filter out ++ map (fun x => (fst x, match snd x with Some _ => true | None => false end)) (combine (map fst events) outs);
        do_waveforms := do_waveforms out ++ passing (combine (map fst events) outs); do_in := do_in out + length events; do_passed := do_passed out + length (passing (combine (map fst events) outs)) |}.
Proof.
  intros F. revert out. induction F as [|[n ev] r events outs H F IH]; intros out; cbn [diomira_run].
  - cbn. rewrite !app_nil_r, !Nat.add_0_r. now destruct out.
  - cbn [snd] in H. rewrite H. cbn [rbind]. rewrite IH. unfold passing. destruct r as [w|]; cbn [do_filter do_waveforms do_in do_passed map combine fst snd length flat_map app]; rewrite <- ?app_assoc; cbn [app]; f_equal; f_equal; lia.
Qed.
(** the tables of a run: one row of the trigger per event, in order, and the waveforms of those that pass *)
Theorem C102_run {E} (event : E -> result (option (list (list Z) * list (list Z) * list (list Z)))) events outs : Forall2 (fun ev r => event (snd ev) = Ok r) events outs ->
  exists out, diomira_run event events {| do_filter := []; do_waveforms := []; do_in := 0; do_passed := 0 |} = Ok out /\
    do_in out = length events /\ do_passed out = length (filter snd (do_filter out)) /\ length (do_waveforms out) = do_passed out /\ map fst (do_filter out) = map fst events /\
    Forall2 (fun x r => snd x = true <-> r <> None) (do_filter out) outs /\ do_waveforms out = passing (combine (map fst events) outs).
Proof.
  intros F. rewrite (run_from event events outs) by assumption. eexists. split; [reflexivity|]. cbn [do_filter do_waveforms do_in do_passed app Nat.add]. split; [reflexivity|]. pose proof (Forall2_len _ _ _ F) as L.
  assert (Lm : length (map fst events) = length outs) by (now rewrite map_length). clear F L. revert Lm. generalize (map fst events) as ns. intros ns. revert outs. induction ns as [|n ns IH]; intros [|r outs] L; try discriminate; [repeat split; constructor|]. injection L as L. destruct (IH outs L) as (I1 & I2 & I3 & I4 & I5).
  cbn [combine map fst snd filter]. unfold passing in *. destruct r as [w|]; cbn [flat_map snd fst app length]; (split; [cbn [length]; congruence|]); (split; [congruence|]); (split; [congruence|]); (split; [|reflexivity]); constructor; try assumption; cbn; split; congruence.
Qed.
Print Assumptions C102_run.

(** ---- a case: two PMTs, the second with another gain, two SiPMs, no trigger ---- *)
Definition ex_e : electronics := {| spe := [1; 2]; scale := 25; fir := [1]; lpf := ([1], [1]); fee_filter := fun _ => ([1], [1]); v_to_adc := 1; offset := 2500; adc_ref := 2 |}%Q.
Definition ex_pmt (g : Q) : dio_row := {| dp_row := {| dq_row := {| pm_id := 0; pm_active := true; pm_clean := 1; pm_blr := 1; pm_gain := g |}; dq_channel := 0 |}; dp_sigma := 0 |}.
Definition ex_sipm (g : Q) : sim_row := {| ss_row := {| sm_active := true; sm_gain := g; sm_pos := (0, 0)%Q |}; ss_sigma := 0; ss_base := 0 |}.
Definition ex_noise (i : nat) : pmt_noise := {| n_in := [0; 0]; n_daq := [1 # 4; 0]; n_low := [0; 1] |}%Q.
Definition ex_light : list (list Q) := [repeat 0%Q 24 ++ [3; 5]%Q ++ repeat 0%Q 24; repeat 0%Q 25 ++ [7]%Q ++ repeat 0%Q 24].
Definition ex_sipmrd : list (list Q) := [[0; 7 # 4; 0]; [3; 0; 0]]%Q.
Definition ex_db := [ex_pmt 2; ex_pmt (-4)].
Definition ex_draw (s j : nat) (q : Q) : Q := q.
Lemma ex_good : good_mc ex_e ex_noise ex_db [ex_sipm 1; ex_sipm 2] 50 3 ex_light ex_sipmrd [[0; 0; 0]; [0; 0; 0]]%Q.
Proof.
  split; try reflexivity; try (cbn; lia); try (repeat constructor; fail).
Qed.
Lemma ex_pmts_fit : pmt_counts_fit ex_e ex_draw ex_noise ex_db ex_light.
Proof.
  intros i d w r b Hd Hw H. assert (C : forall l, forallb (fun x => Qle_bool (-32768) x && Qle_bool x 32767) l = true -> Forall sixteen_bits l).
  { intros l Hl. rewrite forallb_forall in Hl. apply Forall_forall. intros x Hx. specialize (Hl x Hx). apply andb_prop in Hl. destruct Hl as [A B]. apply Qle_bool_iff in A. apply Qle_bool_iff in B. split; assumption. }
  destruct i as [|[|i]]; [..|destruct i; discriminate]; cbn [nth_error ex_db ex_light] in Hd, Hw; injection Hd as <-; injection Hw as <-; vm_compute in H; injection H as <- <-; split; apply C; reflexivity.
Qed.
Lemma ex_sipms_fit : counts_fit ex_draw [ex_sipm 1; ex_sipm 2] ex_sipmrd [[0; 0; 0]; [0; 0; 0]]%Q.
Proof.
  intros s d w n fl j H1 H2 H3 [L F] Hj. destruct s as [|[|s]]; cbn [nth_error ex_sipmrd] in *; [..|destruct s; discriminate]; injection H1 as <-; injection H2 as <-; injection H3 as <-;
  cbn [ex_sipm ss_row sm_gain ss_sigma length] in *; specialize (F j Hj); cbn zeta in F; change (Qeqb 1 0) with false in F; change (Qeqb 2 0) with false in F; cbv iota in F; change (Qeqb (0 / 1) 0) with true in F; change (Qeqb (0 / 2) 0) with true in F; cbv iota in F;
  do 3 (destruct j as [|j]; [cbn [nth] in *; lra|]); lia.
Qed.
Example C102_ex : good_mc ex_e ex_noise ex_db [ex_sipm 1; ex_sipm 2] 50 3 ex_light ex_sipmrd [[0; 0; 0]; [0; 0; 0]]%Q /\ pmt_counts_fit ex_e ex_draw ex_noise ex_db ex_light /\ counts_fit ex_draw [ex_sipm 1; ex_sipm 2] ex_sipmrd [[0; 0; 0]; [0; 0; 0]]%Q /\
  diomira_event (fun _ => (1, 0, 0)%Q) (fun x => x) ex_e ex_draw ex_draw ex_noise ex_db [ex_sipm 1; ex_sipm 2] 0 0 None 2 50 2 3 ex_light ex_sipmrd [[0; 0; 0]; [0; 0; 0]]%Q =
  Ok (Some ([[2500; 2490]; [2500; 2487]], [[0; 11]; [0; 14]], [[0; 1; 0]; [6; 0; 0]]))%Z.
Proof. split; [exact ex_good|]. split; [exact ex_pmts_fit|]. split; [exact ex_sipms_fit|]. vm_compute. reflexivity. Qed.

(** the counts of SiPMs that diomira writes are not the nearest ones, as those of hypathia: the fraction is dropped *)
Theorem C102_rounding_refuted : exists e noise db sipms ns nss pmtrd sipmrd sipm_noise counts rwf blr draw,
  good_mc e noise db sipms ns nss pmtrd sipmrd sipm_noise /\ pmt_counts_fit e draw noise db pmtrd /\ counts_fit draw sipms sipmrd sipm_noise /\
  diomira_event (fun _ => (1, 0, 0)%Q) (fun x => x) e draw draw noise db sipms 0 0 None (length db) ns (length sipms) nss pmtrd sipmrd sipm_noise = Ok (Some (rwf, blr, counts)) /\
  exists s d n w z, nth_error sipms s = Some d /\ nth_error sipm_noise s = Some n /\ nth_error sipmrd s = Some w /\ nth_error counts s = Some z /\ ~ sipm_response (draw s) d 0 0 n w z.
Proof.
  exists ex_e, ex_noise, ex_db, [ex_sipm 1; ex_sipm 2], 50, 3, ex_light, ex_sipmrd, [[0; 0; 0]; [0; 0; 0]]%Q, [[0; 1; 0]; [6; 0; 0]]%Z, [[2500; 2490]; [2500; 2487]]%Z, [[0; 11]; [0; 14]]%Z, ex_draw. destruct C102_ex as (E1 & E2 & E3 & E4).
  split; [exact E1|]. split; [exact E2|]. split; [exact E3|]. split; [exact E4|]. exists 0, (ex_sipm 1), [0; 0; 0]%Q, [0; 7 # 4; 0]%Q, [0; 1; 0]%Z. do 4 (split; [reflexivity|]).
  intros (fl & adc & [L F] & La & Lz & A & R). specialize (F 1 ltac:(cbn; lia)). specialize (A 1 ltac:(cbn; lia)). specialize (R 1 ltac:(cbn; lia)). destruct R as [R _]. cbn [nth ex_sipm ss_row sm_gain ss_sigma ss_base] in *.
  change (Qeqb 1 0) with false in F. cbv iota zeta in F. change (Qeqb (0 / 1) 0) with true in F. cbv iota in F. assert (Ha : (nth 1 adc 0 == 7 # 4)%Q) by lra.
  assert (K : WfmSpec.kept adc (0 * 1 + 0) 0 1). { left. lra. }
  destruct (R K) as [N _]. rewrite Ha in N. vm_compute in N. apply N. reflexivity.
Qed.
Print Assumptions C102_rounding_refuted.
Example C102_length_ex : good_mc ex_e (fun _ => {| n_in := [0; 0]; n_daq := [0; 0]; n_low := [0] |}%Q) [ex_pmt 2] [] 26 3 [repeat 0%Q 26] [] [] /\ 26 mod 25 <> 0 /\ [ex_pmt 2] <> [].
Proof. split; [split; try reflexivity; try (cbn; lia); try (repeat constructor; fail)|]. split; [cbn; lia|discriminate]. Qed.
Definition ex_event (b : bool) : result (option (list (list Z) * list (list Z) * list (list Z))) := Ok (if b then Some ([[5%Z]], [[1%Z]], []) else None).
Example C102_run_ex : Forall2 (fun ev r => ex_event (snd ev) = Ok r) [(4%Z, true); (7%Z, false); (9%Z, true)] [Some ([[5%Z]], [[1%Z]], []); None; Some ([[5%Z]], [[1%Z]], [])] /\
  diomira_run ex_event [(4%Z, true); (7%Z, false); (9%Z, true)] {| do_filter := []; do_waveforms := []; do_in := 0; do_passed := 0 |} =
  Ok {| do_filter := [(4%Z, true); (7%Z, false); (9%Z, true)]; do_waveforms := [(4%Z, ([[5%Z]], [[1%Z]], [])); (9%Z, ([[5%Z]], [[1%Z]], []))]; do_in := 3; do_passed := 2 |}.
Proof. split; [repeat constructor|reflexivity]. Qed.
