(** Lemmas for C97: the steps before the peak search, and the peaks of any calibrated waveforms *)
From Coq Require Import Qround.
From Verif Require Import Base Arrays PeaksModel PeaksSpec PeaksProofs PeaksMore PeaksFind PeaksProps WfmModel WfmSpec WfmProps NoiseModel NoiseProps CalibModel CalibSpec CalibProps CalibBlr DetsimModel DetsimNumbers.
From Verif Require Import IreneModel IreneSpec IreneProofs IreneSteps IreneProps HypaModel HypaSpec.
Local Open Scope nat_scope.

Lemma fluctuation_ok draw rms w : fluctuated draw rms w (charge_fluctuation draw rms w).
Proof.
  unfold fluctuated, charge_fluctuation. destruct (Qeqb_spec rms 0) as [E|E]; [split; [reflexivity|intros; reflexivity]|]. split; [apply length_mapi|]. intros j Hj. rewrite (nth_mapi _ w j 0%Q 0%Q Hj). cbv zeta.
  destruct (Qle_bool (nth j w 0%Q) 0) eqn:C.
  - apply Qle_bool_iff in C. destruct (Qltb_spec 0 (nth j w 0%Q)); [lra|]. destruct (Qltb_spec (nth j w 0%Q) 0); lra.
  - destruct (Qltb_spec 0 (nth j w 0%Q)) as [D|D]; [|apply Qle_bool_iff in D; congruence]. destruct (Qle_bool (draw j (nth j w 0%Q)) 0) eqn:F.
    + apply Qle_bool_iff in F. destruct (Qltb_spec (draw j (nth j w 0%Q)) 0); lra.
    + destruct (Qltb_spec (draw j (nth j w 0%Q)) 0) as [G|G]; [|reflexivity]. exfalso. apply Qlt_le_weak, Qle_bool_iff in G. congruence.
Qed.

Lemma cdiv_bounds n k : 0 < k -> k * cdiv n k < n + k /\ n <= k * cdiv n k.
Proof.
  intros Hk. unfold cdiv. pose proof (Nat.div_mod (n + k - 1) k ltac:(lia)) as D. pose proof (Nat.mod_upper_bound (n + k - 1) k ltac:(lia)). set (q := (n + k - 1) / k) in *. lia.
Qed.
Lemma bounds_unique k n a b : 0 < k -> k * a < n + k -> n <= k * a -> k * b < n + k -> n <= k * b -> a = b.
Proof. intros. nia. Qed.

Lemma grouped_one w : grouped 1 w w.
Proof.
  split; [lia|]. split; [lia|]. intros j Hj. rewrite charge_in_slice. unfold slice. replace (1 * (j + 1) - 1 * j) with 1 by lia. rewrite Nat.mul_1_l.
  assert (E : skipn j w = nth j w 0%Q :: skipn (S j) w). { clear -Hj. revert j Hj. induction w as [|x w IH]; intros [|j] Hj; cbn in *; try lia; [reflexivity|]. apply IH. lia. }
  rewrite E. cbn [firstn sumQ fold_right]. lra.
Qed.
Lemma rebinned_ok stride m ns : is_mat m -> let k := Z.to_nat (Z.max 1 stride) in k * ns < cols m + k -> cols m <= k * ns ->
  exists w, rebin_pmts stride m = Ok w /\ is_mat w /\ cols w = ns /\ Forall2 (grouped k) (rows m) (rows w).
Proof.
  intros M k H1 H2. unfold rebin_pmts. destruct (Z.ltb_spec 1 stride) as [L|L].
  - destruct (rebin_spec (repeat 0%Q (cols m)) (repeat 0%Q (cols m)) m stride M) as (ts & ws & w & E & R); [now rewrite repeat_length|reflexivity|]. rewrite E. cbn [rbind]. exists w. split; [reflexivity|]. destruct R. split; [assumption|].
    assert (S : step stride = k) by (unfold step, k; lia). rewrite S, repeat_length in *. destruct (cdiv_bounds (cols m) k) as [B1 B2]; [unfold k; lia|].
    assert (C : cols w = ns). { rewrite rb_cols, rb_len. apply (bounds_unique k (cols m)); unfold k in *; lia. } split; [assumption|].
    assert (Lw : length ts = ns) by congruence. rewrite Lw in rb_rows. unfold is_mat in M, rb_mat. revert M rb_mat rb_rows. generalize (rows m), (rows w). intros a b. revert b. induction a as [|x a IH]; intros b M R F; inversion F as [|? y ? b' G F']; subst; constructor.
    + inversion M as [|? ? Mx M']; subst. inversion R as [|? ? Ry R']; subst. unfold grouped. rewrite Mx, Ry. split; [lia|]. split; [lia|]. intros j Hj. rewrite charge_in_slice. apply G. lia.
    + inversion M as [|? ? Mx M']; subst. inversion R as [|? ? Ry R']; subst. now apply IH.
  - exists m. split; [reflexivity|]. assert (K : k = 1) by (unfold k; lia). rewrite K in *. split; [assumption|]. split; [lia|]. induction (rows m); constructor; auto using grouped_one.
Qed.

Section Sipms.
  Variable draw : nat -> nat -> Q -> Q.
  Variables (cut : Q) (padding nss : nat).
  Lemma discretize_ok x : (-32768 <= x <= 32767)%Q -> exists z, discretize x = Ok z /\ nearest x z.
  Proof.
    intros [H1 H2]. unfold discretize. pose proof (np_round_nearest x) as N. set (z := np_round x) in *. exists z. split; [|exact N]. destruct N as [N _]. apply Qabs_Qle_condition in N. destruct N as [N1 N2].
    assert (A : (inject_Z (-32769) < inject_Z z)%Q) by (change (inject_Z (-32769)) with (-32769)%Q; lra). assert (B : (inject_Z z < inject_Z 32768)%Q) by (change (inject_Z 32768) with 32768%Q; lra).
    rewrite <- Zlt_Qlt in A, B. destruct (Z.ltb_spec z (-32768)); [lia|]. destruct (Z.ltb_spec 32767 z); [lia|]. reflexivity.
  Qed.
  Lemma discretize_zero x : (x == 0)%Q -> discretize x = Ok 0%Z.
  Proof.
    intros E. unfold discretize. pose proof (np_round_nearest x) as [N _]. set (z := np_round x) in *. rewrite E in N. apply Qabs_Qle_condition in N. destruct N as [N1 N2].
    assert (A : (inject_Z (-1) < inject_Z z)%Q) by (change (inject_Z (-1)) with (-1)%Q; lra). assert (B : (inject_Z z < inject_Z 1)%Q) by (change (inject_Z 1) with 1%Q; lra). rewrite <- Zlt_Qlt in A, B. replace z with 0%Z by lia. reflexivity.
  Qed.

  Lemma one_sipm s d n w : length w = nss -> length n = nss ->
    (forall fl j, fluctuated (draw s) (pe_resolution d) w fl -> j < length w -> (-32768 <= nth j fl 0 * sm_gain (ss_row d) + nth j n 0 <= 32767)%Q) ->
    exists z, rmap discretize (suppress_wf (simulate_sipm (draw s) (pe_resolution d) (sm_gain (ss_row d)) n w) (suppression_thr cut d) padding) = Ok z /\
      sipm_response (draw s) d cut padding n w z.
  Proof using All.
    intros Lw Ln Fit. set (fl := charge_fluctuation (draw s) (pe_resolution d) w). pose proof (fluctuation_ok (draw s) (pe_resolution d) w) as Ffl. fold fl in Ffl. assert (Lfl : length fl = nss) by (rewrite <- Lw; apply Ffl).
    set (adc := simulate_sipm (draw s) (pe_resolution d) (sm_gain (ss_row d)) n w). assert (Ladc : length adc = nss) by (unfold adc, simulate_sipm; fold fl; rewrite length_map2_eq; congruence).
    assert (Nadc : forall j, j < nss -> nth j adc 0%Q = (nth j fl 0 * sm_gain (ss_row d) + nth j n 0)%Q) by (intros j Hj; unfold adc, simulate_sipm; fold fl; rewrite nth_map2 with (da := 0%Q) (db := 0%Q) by congruence; reflexivity).
    destruct (C27_zero_suppression adc (suppression_thr cut d) padding) as [Ls Ks]. set (sup := suppress_wf adc (suppression_thr cut d) padding) in *.
    assert (Pt : forall j, j < nss -> nth j sup 0%Q = 0%Q \/ nth j sup 0%Q = nth j adc 0%Q).
    { intros j Hj. unfold sup, suppress_wf. destruct (pad_signal_spec adc (suppression_thr cut d) padding) as [L _]. rewrite nth_map2 with (da := false) (db := 0%Q) by (rewrite ?L; congruence). destruct (nth j _ false); auto. }
    destruct (rmap_Forall2 discretize sup) as (z & E & F).
    { intros x Hx. destruct (In_nth _ _ 0%Q Hx) as (j & Hj & <-). rewrite Ls, Ladc in Hj. destruct (Pt j Hj) as [-> | ->]; [exists 0%Z; now apply discretize_zero|]. rewrite Nadc by assumption.
      destruct (discretize_ok (nth j fl 0 * sm_gain (ss_row d) + nth j n 0)%Q) as (z & Hz & _); [|now exists z]. apply Fit; [assumption|lia]. }
    exists z. split; [exact E|]. exists fl, adc. split; [exact Ffl|]. assert (Lz : length z = nss) by (rewrite <- (Forall2_len _ _ _ F); congruence). split; [congruence|]. split; [congruence|]. split; [intros j Hj; rewrite Nadc by congruence; reflexivity|].
    intros j Hj. rewrite Lw in Hj. assert (D : discretize (nth j sup 0%Q) = Ok (nth j z 0%Z)). { clear -F Hj Lz. assert (Hj' : j < length z) by lia. clear Hj Lz. revert j Hj'. induction F as [|x y l l' Hx F IH]; intros [|j] Hj; cbn in *; try lia; [assumption|]. apply IH. lia. }
    destruct (Ks j ltac:(lia)) as [K1 K2]. split; intros K.
    - rewrite K1 in D by exact K. destruct (discretize_ok (nth j adc 0%Q)) as (z' & D' & N); [rewrite Nadc by assumption; apply Fit; [assumption|lia]|]. congruence.
    - rewrite K2 in D by exact K. rewrite discretize_zero in D by reflexivity. congruence.
  Qed.
End Sipms.

Lemma mapi_from_shift {A B} (f : nat -> A -> B) l k : mapi_from k f l = mapi (fun i => f (k + i)) l.
Proof.
  unfold mapi. assert (G : forall l a b, mapi_from (a + b) f l = mapi_from b (fun i => f (a + i)) l). { clear. induction l as [|x l IH]; intros a b; [reflexivity|]. cbn. f_equal. rewrite <- IH. f_equal. lia. }
  rewrite <- G. now rewrite Nat.add_0_r.
Qed.
Lemma sipms_simulated draw sipms cut padding nss noise light :
  length light = length sipms -> length noise = length sipms -> Forall (fun w => length w = nss) light -> Forall (fun w => length w = nss) noise ->
  counts_fit draw sipms light noise ->
  exists wfs rs, simulate_sipms draw sipms cut padding noise light = Ok wfs /\ rmap (rmap discretize) wfs = Ok rs /\ length rs = length sipms /\ Forall (fun z => length z = nss) rs /\
    forall s d n w, nth_error sipms s = Some d -> nth_error noise s = Some n -> nth_error light s = Some w -> exists z, nth_error rs s = Some z /\ sipm_response (draw s) d cut padding n w z.
Proof.
  intros L1 L2 F1 F2 Fit. unfold simulate_sipms. rewrite L1, L2, Nat.eqb_refl. cbn [negb orb]. eexists. 
  enough (G : exists rs, rmap (rmap discretize) (noise_suppression (mapi (fun s '(d, (n, w)) => simulate_sipm (draw s) (pe_resolution d) (sm_gain (ss_row d)) n w) (combine sipms (combine noise light))) (map (suppression_thr cut) sipms) (map (fun _ => padding) sipms)) = Ok rs /\
    length rs = length sipms /\ Forall (fun z => length z = nss) rs /\
    forall s d n w, nth_error sipms s = Some d -> nth_error noise s = Some n -> nth_error light s = Some w -> exists z, nth_error rs s = Some z /\ sipm_response (draw s) d cut padding n w z) by (destruct G as (rs & G); exists rs; split; [reflexivity|exact G]).
  revert draw noise light L1 L2 F1 F2 Fit. induction sipms as [|d sipms IH]; intros draw [|n noise] [|w light] L1 L2 F1 F2 Fit; try easy.
  - exists []. repeat split; [constructor|]. intros [|s]; easy.
  - inversion F1 as [|? ? Lw F1']; subst. inversion F2 as [|? ? Ln F2']; subst. cbn [length] in L1, L2. unfold mapi at 1. cbn [combine mapi_from map]. unfold noise_suppression. cbn [map3 rmap].
    destruct (one_sipm draw cut padding (length w) 0 d n w) as (z & Ez & Rz); [reflexivity|assumption|intros fl j Hf Hj; exact (Fit 0 d w n fl j eq_refl eq_refl eq_refl Hf Hj)|]. rewrite Ez. cbn [rbind].
    rewrite mapi_from_shift. destruct (IH (fun s => draw (S s)) noise light) as (rs & E & L & F & P); try lia; try assumption.
    { intros s d' w' n' fl j H1 H2 H3. exact (Fit (S s) d' w' n' fl j H1 H2 H3). }
    cbn [Nat.add]. unfold noise_suppression in E. rewrite E. exists (z :: rs). split; [reflexivity|]. split; [cbn; lia|]. split; [constructor; [|assumption]|].
    { destruct Rz as (fl & adc & _ & _ & Lz & _). exact Lz. }
    intros [|s] d' n' w' H1 H2 H3; cbn [nth_error] in *; [|now apply P]. injection H1 as <-. injection H2 as <-. injection H3 as <-. now exists z.
Qed.

Lemma calibrated_sipms (sipms : list sipm_row) rs nss : length rs = length sipms -> Forall (fun w => length w = nss) rs ->
  let aps := sipms_in_use sipms rs in
  filter sm_active sipms = map (fun x => fst (snd x)) aps /\ mask_rows (map sm_active sipms) rs = Ok (map (fun x => snd (snd x)) aps) /\ np_where sm_active sipms = map fst aps /\
  exists css, calibrate_active_sipms sipms (map (fun x => snd (snd x)) aps) = Ok css /\ Forall2 (fun x cs => own_sipm (snd x) cs) aps css /\ Forall (fun cs => length cs = nss) css.
Proof.
  intros L FN aps. destruct (select_in_use sm_active sipms rs (eq_sym L)) as [B A]. destruct (numbered_in_use sm_active sipms rs 0 (eq_sym L)) as [C D]. fold (sipms_in_use sipms rs) in C, D. fold aps in C, D. rewrite <- C in A, B. rewrite !map_map in A, B.
  split; [exact A|]. split; [unfold mask_rows; rewrite map_length, L, Nat.eqb_refl; now rewrite B|]. split; [symmetry; exact D|]. unfold calibrate_active_sipms, calibrate_sipms. rewrite A.
  assert (FL : Forall (fun x => length (snd (snd x)) = nss) aps).
  { apply Forall_forall. intros [i [d w]] Hd. unfold aps, sipms_in_use in Hd. apply filter_In in Hd. destruct Hd as [Hd _]. apply in_combine_r, in_combine_r in Hd. cbn [snd]. rewrite Forall_forall in FN. now apply FN. }
  destruct (C54_subtract_baseline BlsMode (map (fun x => snd (snd x)) aps) ltac:(discriminate)) as (bls & E & F). rewrite E. cbn [rbind].
  unfold calibrate_wfs. rewrite per_row_ok by (rewrite <- (Forall2_len _ _ _ F), !map_length; reflexivity). eexists. split; [reflexivity|]. clear E. revert bls F FL. generalize aps. intros l.
  induction l as [|[i [d w]] l IH]; intros bls F FL; inversion F as [|? o ? bls' (b & Hb & Ho) F']; subst; [split; constructor|]. inversion FL as [|? ? HL FL']; subst. destruct (IH bls' F' FL') as [I1 I2].
  cbn [map map2 fst snd] in *. split; constructor; try assumption.
  - cbn [snd]. exists b. split; [assumption|]. rewrite gain_pos. clear -Ho. induction Ho as [|x y w o Hx Ho IH]; constructor; [|exact IH]. rewrite Hx.
    destruct (x =? 0)%Z, (Qeqb_spec (sm_gain d) 0) as [G|G]; cbn [orb negb]; reflexivity.
  - rewrite map_length. symmetry. apply (Forall2_len _ _ _ Ho).
Qed.

(** the peaks of waveforms of PMTs and SiPMs that are calibrated *)
Lemma pmap_built pmts sipms p cc nss rs css i1 i2 r m :
  let ids := map pm_id (filter pm_active pmts) in
  is_mat cc -> length ids = length (rows cc) -> length rs = length sipms ->
  Forall2 (fun x cs => own_sipm (snd x) cs) (sipms_in_use sipms rs) css -> Forall (fun cs => length cs = nss) css ->
  (0 < pmt_wid p)%Q -> 0 < r -> 0 < m -> Qfloor (sipm_wid p / pmt_wid p) = Z.of_nat r -> k_rebin (s2_params p) = Z.of_nat (r * m) -> cols cc <= r * nss ->
  selection_fits sipms (cut p) ->
  i1 <> [] -> i2 <> [] -> StronglySorted lt i1 -> StronglySorted lt i2 -> (forall i, In i i1 -> i < cols cc) -> (forall i, In i i2 -> i < cols cc) ->
  (forall i, In i i2 -> (0 < col_sum cc i)%Q) ->
  exists s1s s2s, build_pmap pmts sipms p cc i1 i2 {| cols := nss; rows := css |} = Ok (s1s, s2s) /\
    peaks_of (s1_params p) (pmt_wid p) i1 (s1_of cc (pmt_wid p) (k_rebin (s1_params p)) ids) s1s /\
    peaks_of (s2_params p) (pmt_wid p) i2 (s2_of cc (pmt_wid p) ids (cut p) (sipms_in_use sipms rs) css r m) s2s.
Proof.
  intros ids Mat Lids Lrs OwnS LenS Hw Hr Hm Hrat Hreb Hlong F K1 K2 S1 S2 I1 I2 Pos.
  destruct (select_in_use sm_active sipms rs (eq_sym Lrs)) as [_ A]. destruct (numbered_in_use sm_active sipms rs 0 (eq_sym Lrs)) as [C Ew]. fold (sipms_in_use sipms rs) in C, Ew. rewrite <- C, !map_map in A.
  unfold build_pmap. fold ids. unfold np_where. rewrite <- Ew. set (sp := {| cols := nss; rows := css |}).
  destruct (find_peaks_spec cc i1 (k_time (s1_params p)) (k_length (s1_params p)) (k_stride (s1_params p)) (k_rebin (s1_params p)) ids [] (pmt_wid p) (sipm_wid p) None (fun m => ([], m)))
    as (s1s & g1 & q1 & E1 & G1 & Q1 & _ & F1); try assumption; [exact I|].
  pose proof (find_peaks_built _ _ _ _ _ _ _ _ _ _ _ _ _ _ _ K1 G1 Q1 E1) as B1. rewrite E1. cbn [rbind].
  assert (P1 : peaks_of (s1_params p) (pmt_wid p) i1 (s1_of cc (pmt_wid p) (k_rebin (s1_params p)) ids) s1s).
  { exists g1, q1. split; [assumption|]. split; [assumption|]. eapply Forall2_impl_in; [|apply (Forall2_and' _ _ _ _ F1 B1)]. cbn beta. intros g pk Hg [(a & b & Ha & Hb & Hab & Hm') Bk].
    apply (s1_peak g a b cc (pmt_wid p) (sipm_wid p) (k_rebin (s1_params p)) ids [] (fun m => ([], m)) pk); try assumption. apply I1. rewrite <- (gp_concat _ _ _ G1). apply in_concat. exists g. split; [now apply filter_In in Hg|]. destruct Hb as (t & ->). apply in_app_iff. right. now left. }
  assert (Lcss : length css = length (sipms_in_use sipms rs)) by (symmetry; now apply Forall2_len in OwnS).
  assert (Lsp : length (rows sp) = length (filter sm_active sipms)) by (rewrite A, map_length; exact Lcss).
  assert (Tot : forall reb, length (rows reb) = length (rows sp) -> exists idx out, sipm_selection sipms (cut p) reb = Ok (idx, out) /\ selects (cut p) reb idx out).
  { intros reb Hrb. apply selection_selects; [assumption|congruence]. }
  rewrite find_s2s_total by (intros reb Hrb; destruct (Tot reb Hrb) as (idx & out & E & _); now exists (idx, out)).
  assert (RO : readout_ok cc sp (map fst (sipms_in_use sipms rs)) (k_rebin (s2_params p)) (pmt_wid p) (sipm_wid p) (total (sipm_selection sipms (cut p))) r m).
  { unfold readout_ok. repeat (split; [assumption|]). split; [rewrite map_length; symmetry; exact Lcss|]. apply selection_good. }
  destruct (find_peaks_spec cc i2 (k_time (s2_params p)) (k_length (s2_params p)) (k_stride (s2_params p)) (k_rebin (s2_params p)) ids (map fst (sipms_in_use sipms rs)) (pmt_wid p) (sipm_wid p) (Some sp) (total (sipm_selection sipms (cut p))))
    as (s2s & g2 & q2 & E2 & G2 & Q2 & _ & F2); try assumption; [split; [now exists r, m|exact Pos]|].
  pose proof (find_peaks_built _ _ _ _ _ _ _ _ _ _ _ _ _ _ _ K2 G2 Q2 E2) as B2. rewrite E2. cbn [rbind]. exists s1s, s2s. split; [reflexivity|]. split; [exact P1|].
  exists g2, q2. split; [assumption|]. split; [assumption|]. eapply Forall2_impl_in; [|apply (Forall2_and' _ _ _ _ F2 B2)]. cbn beta. intros g pk Hg [(a & b & Ha & Hb & Hab & Hm') Bk].
  assert (Hbn : b < cols cc).
  { apply I2. rewrite <- (gp_concat _ _ _ G2). apply in_concat. exists g. split; [now apply filter_In in Hg|]. destruct Hb as (t & ->). apply in_app_iff. right. now left. }
  destruct (build_peak_with_sipms g a b (map (fun i => qn i * pmt_wid p)%Q (seq 0 (cols cc))) (repeat (pmt_wid p) (cols cc)) cc ids (map fst (sipms_in_use sipms rs)) sp (pmt_wid p) (sipm_wid p) (total (sipm_selection sipms (cut p))) r m)
    as (pk' & reb & tss & wss & Eb & Ei & W & Ids & Pp & Ps & Lr); try assumption; try apply RO; try (apply ends_spec; now split).
  { rewrite map_length, seq_length. exact Hbn. } { now rewrite repeat_length. }
  { apply Nat.div_lt_upper_bound; [lia|]. change (cols sp) with nss. lia. }
  assert (pk' = pk) by (rewrite Hreb in Bk; congruence). subst pk'.
  pose proof (Forall2_len _ _ _ (pk_rows _ _ _ _ _ _ _ _ _ _ Ps)) as Lrr.
  destruct (Tot reb (eq_sym Lrr)) as (idx & out & Esel & Sel). unfold total in W, Ids. rewrite Esel in W, Ids. cbn [fst snd] in W, Ids.
  eapply (s2_peak sipms rs (cut p) css r m a b reb idx out cc (pmt_wid p) ids g pk);
    [exact Ha|exact Hb|exact Hab|exact Hr|exact Hm|exact Lids|exact Hm'|exact Pp|congruence|exact F|exact Lcss|exact Sel|apply (pk_mat _ _ _ _ _ _ _ _ _ _ Ps)|exact Lr|exact W|exact Ids|].
  - assert (Ltss : length tss = length (p_times pk)) by (rewrite <- Lr; symmetry; apply (pk_cols _ _ _ _ _ _ _ _ _ _ Ps)).
    eapply Forall2_impl; [|apply (pk_rows _ _ _ _ _ _ _ _ _ _ Ps)]. cbn beta. intros w w' Hw' k Hk. rewrite Ltss in Hw'. rewrite (Hw' k Hk). unfold sipm_bin, bin_lo, bin_hi. rewrite !Nat.sub_0_r. reflexivity.
Qed.

(** with identifiers of fewer PMTs than waveforms, the first peak that is built stops the program *)
Lemma pmap_fails pmts sipms p cc i1 i2 sp :
  is_mat cc -> length (filter pm_active pmts) <> length (rows cc) ->
  (0 < pmt_wid p)%Q ->
  (exists r m, 0 < r /\ 0 < m /\ Qfloor (sipm_wid p / pmt_wid p) = Z.of_nat r /\ k_rebin (s2_params p) = Z.of_nat (r * m)) ->
  i1 <> [] -> i2 <> [] -> StronglySorted lt i1 -> StronglySorted lt i2 -> (forall i, In i i1 -> i < cols cc) -> (forall i, In i i2 -> i < cols cc) ->
  ((exists gs g, gap_partition (k_stride (s1_params p)) i1 gs /\ In g gs /\ qualifies (k_time (s1_params p)) (k_length (s1_params p)) (pmt_wid p) g) \/
   (exists gs g, gap_partition (k_stride (s2_params p)) i2 gs /\ In g gs /\ qualifies (k_time (s2_params p)) (k_length (s2_params p)) (pmt_wid p) g)) ->
  build_pmap pmts sipms p cc i1 i2 sp = Err ValueError.
Proof.
  intros Mat Lids Hw (r & m & Hr & Hm & Hrat & Hreb) K1 K2 S1 S2 I1 I2 Q.
  assert (Pick : forall index stride rebin pad ratio g, index <> [] -> StronglySorted lt index -> (forall i, In i index -> i < cols cc) -> (pad = true -> 0 < ratio <= step rebin) -> In g (split_in_peaks index stride) ->
     exists ts ws w, pick_slice_and_rebin g (map (fun i => qn i * pmt_wid p)%Q (seq 0 (cols cc))) (repeat (pmt_wid p) (cols cc)) cc rebin pad ratio = Ok (ts, ws, w) /\ mk_responses (map pm_id (filter pm_active pmts)) w = Err ValueError).
  { intros index stride rebin pad ratio g Hne Hs Hin Hp Hg. pose proof (split_gap_partition index stride Hne) as G. pose proof (gp_nonempty _ _ _ G) as N. rewrite Forall_forall in N. specialize (N g Hg).
    assert (Bg : forall i, In i g -> i < cols cc). { intros i Hi. apply Hin. rewrite <- (gp_concat _ _ _ G). apply in_concat. now exists g. }
    assert (Sg : StronglySorted lt g).
    { rewrite <- (gp_concat _ _ _ G) in Hs. clear -Hs Hg. induction (split_in_peaks index stride) as [|h l IH]; [easy|]. cbn [concat] in Hs. destruct Hg as [-> |Hg].
      + clear IH. induction g as [|x g IH]; constructor; inversion Hs; subst; [now apply IH|]. rewrite Forall_forall in *. intros y Hy. apply H2. apply in_app_iff. now left.
      + apply IH; [|assumption]. clear -Hs. induction h as [|x h IH]; [assumption|]. inversion Hs; subst. now apply IH. }
    destruct g as [|a g]; [now contradiction N|]. destruct (ends (a :: g)) as [[a' b]|] eqn:Ee; [|discriminate]. destruct (SS_ends _ _ _ Sg Ee) as [Hab _]. destruct (ends_in _ _ _ Ee) as [_ Hb]. pose proof (Bg b Hb) as Bb.
    destruct (pick_spec (a :: g) a' b (map (fun i => qn i * pmt_wid p)%Q (seq 0 (cols cc))) (repeat (pmt_wid p) (cols cc)) cc rebin pad ratio) as (ts & ws & w & E & _); try assumption.
    { now rewrite map_length, seq_length. } { now rewrite repeat_length. }
    { destruct pad; [specialize (Hp eq_refl); pose proof (Nat.mod_upper_bound a' ratio ltac:(lia)); lia|unfold step; lia]. }
    exists ts, ws, w. split; [exact E|]. apply pick_rows in E. unfold mk_responses. rewrite map_length, E. destruct (Nat.eqb_spec (length (filter pm_active pmts)) (length (rows cc))); [contradiction|reflexivity]. }
  assert (Ends : forall index s, index <> [] -> (exists gs g, gap_partition (k_stride s) index gs /\ In g gs /\ qualifies (k_time s) (k_length s) (pmt_wid p) g) ->
     exists g l, filter (validb (k_time s) (k_length s) (pmt_wid p)) (split_in_peaks index (k_stride s)) = g :: l /\ In g (split_in_peaks index (k_stride s))).
  { intros index s Hne (gs & g & G & Hg & Hq). assert (gs = split_in_peaks index (k_stride s)) as -> by (apply (gap_partition_unique (k_stride s) index); [assumption|now apply split_gap_partition]).
    assert (I0 : In g (filter (validb (k_time s) (k_length s) (pmt_wid p)) (split_in_peaks index (k_stride s)))) by (apply filter_In; split; [assumption|now apply validb_qualifies]).
    destruct (filter (validb (k_time s) (k_length s) (pmt_wid p)) (split_in_peaks index (k_stride s))) as [|h l] eqn:Ef; [contradiction|]. exists h, l. split; [reflexivity|]. assert (In h (h :: l)) as J by now left. rewrite <- Ef in J. now apply filter_In in J. }
  unfold build_pmap. unfold find_peaks. rewrite select_peaks_ok by (apply split_gap_partition; assumption). cbn [rbind].
  destruct (filter (validb (k_time (s1_params p)) (k_length (s1_params p)) (pmt_wid p)) (split_in_peaks i1 (k_stride (s1_params p)))) as [|g l] eqn:E1.
  - destruct Q as [Q|Q]; [destruct (Ends i1 (s1_params p) K1 Q) as (g & l & E & _); congruence|]. cbn [rmap rbind]. unfold find_s2s. rewrite select_peaks_ok by (apply split_gap_partition; assumption). cbn [rbind].
    destruct (Ends i2 (s2_params p) K2 Q) as (g & l & -> & Hg). cbn [rmap]. unfold build_s2. cbv zeta.
    destruct (Pick i2 (k_stride (s2_params p)) (k_rebin (s2_params p)) true (Z.to_nat (Qfloor (sipm_wid p / pmt_wid p))) g) as (ts & ws & w & -> & E); try assumption.
    { intros _. rewrite Hrat, Hreb. unfold step. nia. } cbn [rbind]. rewrite E. reflexivity.
  - cbn [rmap]. unfold build_peak. cbv zeta. destruct (Pick i1 (k_stride (s1_params p)) (k_rebin (s1_params p)) false (Z.to_nat (Qfloor (sipm_wid p / pmt_wid p))) g) as (ts & ws & w & -> & E); try assumption; [easy| |].
    { assert (In g (g :: l)) as J by now left. rewrite <- E1 in J. now apply filter_In in J. } cbn [rbind]. rewrite E. reflexivity.
Qed.
