(** C126: the seeds of the calibration fits *)
From Coq Require Import Reals.
From Verif Require Import Base LifeModel SeedSpec SeedModel.
From Coq Require Import Lra.
Local Open Scope R_scope.

Lemma gauss_normal : forall a m s c, 0 < s -> gauss (a, m, s) c = normal a m s c.
Proof.
  intros a m s c S. unfold gauss, normal. assert (P : 0 < sqrt (2 * PI)) by (apply sqrt_lt_R0; pose proof PI_RGT_0; lra).
  replace (- (1 / 2) * (c - m) ^ 2 / s ^ 2) with (- ((c - m) / s) ^ 2 / 2) by (field; lra). field. lra.
Qed.
Lemma adds_total : forall (P : R -> Prop) (B : R -> bool), (forall c, B c = true <-> P c) -> forall bins l t, adds_up P bins l t <-> length bins = length l /\ t = total (chosen B bins l).
Proof.
  intros P B H. induction bins as [|c bins IH]; intros [|s l] t.
  - split; [intros A; inversion A; auto|intros [_ ->]; constructor].
  - split; [intros A; inversion A|intros [E _]; discriminate].
  - split; [intros A; inversion A|intros [E _]; discriminate].
  - unfold chosen. cbn. destruct (B c) eqn:E.
    + assert (Pc : P c) by (apply H, E). split.
      * intros A. inversion A as [| ? ? ? ? t' _ A'|? ? ? ? t' N A']; subst; [|contradiction]. apply IH in A'. destruct A' as [L ->]. split; [congruence|reflexivity].
      * intros [L ->]. cbn. apply adds_in; [exact Pc|]. apply IH. split; [congruence|reflexivity].
    + assert (Pc : ~ P c) by (intros X; apply H in X; congruence). split.
      * intros A. inversion A as [| ? ? ? ? t' N A'|? ? ? ? t' _ A']; subst; [contradiction|]. apply IH in A'. destruct A' as [L ->]. split; [congruence|reflexivity].
      * intros [L ->]. apply adds_out; [exact Pc|]. apply IH. split; [congruence|reflexivity].
Qed.
Lemma negative_spec : forall c, negative c = true <-> c < 0.
Proof. intros c. unfold negative. destruct (Rlt_dec c 0); split; auto; discriminate || (intros; lra). Qed.
Lemma central_spec : forall c, central c = true <-> -5 <= c <= 5.
Proof. intros c. unfold central. destruct (Rle_dec (-5) c); [destruct (Rle_dec c 5)|]; split; auto; try discriminate; intros; lra. Qed.
Lemma total_sub : forall (P : R -> bool) (f : R -> R) k bins l, length bins = length l ->
  total (chosen P bins (map2 (fun s c => s - f c * k) l bins)) = total (chosen P bins l) - total (map f (filter P bins)) * k.
Proof.
  intros P f k. induction bins as [|c bins IH]; intros [|s l] L; try discriminate; [unfold chosen; cbn; lra|]. injection L as L. specialize (IH l L). unfold chosen, total in *. cbn. destruct (P c); cbn; rewrite IH; lra.
Qed.

(** For photomultipliers the single photoelectron is looked for in the counts without a pedestal: a gaussian of the mean and sigma given, scaled so
    that no counts are left, in total, below zero charge *)
Theorem C126_pedestal : forall bins spectrum a m s v, sensor_values PMT bins spectrum (a, m, s) = Ok v ->
  0 < s /\ adds_up (fun c => c < 0) bins (spectra v) 0 /\ exists k, length (spectra v) = length spectrum /\ forall i c n, nth_error bins i = Some c -> nth_error spectrum i = Some n -> nth_error (spectra v) i = Some (n - k * normal a m s c).
Proof.
  intros bins spectrum a m s v H. cbn [sensor_values] in H. unfold scale_of in H. destruct (length bins =? length spectrum)%nat eqn:L; [|discriminate]. apply Nat.eqb_eq in L. cbn [negb] in H.
  destruct (Rle_dec s 0) as [|S]; [discriminate|]. destruct (Req_EM_T (total (map (gauss (a, m, s)) (filter negative bins))) 0) as [|G]; [discriminate|]. cbn [rbind] in H. apply (f_equal (fun r => match r with Ok x => x | Err _ => v end)) in H. cbv beta iota in H. rewrite <- H. clear H. cbn [spectra].
  set (k := total (chosen negative bins spectrum) / total (map (gauss (a, m, s)) (filter negative bins))).
  assert (LM : forall sp bi : list R, length bi = length sp -> length (map2 (fun n c => n - gauss (a, m, s) c * k) sp bi) = length sp).
  { induction sp as [|n sp IH]; intros [|c bi] E; try discriminate; [reflexivity|]. cbn. f_equal. apply IH. injection E as E. exact E. }
  split; [lra|]. split.
  - apply (adds_total _ negative negative_spec). split; [rewrite LM; [exact L|exact L]|]. rewrite (total_sub negative (gauss (a, m, s)) k bins spectrum L). subst k. set (g := total (map (gauss (a, m, s)) (filter negative bins))) in *. unfold Rdiv. rewrite (Rmult_comm g), Rmult_assoc, Rinv_l by exact G. lra.
  - exists k. split; [apply LM, L|]. intros i c n. clearbody k. clear -S. revert spectrum i. induction bins as [|c' bins IH]; intros [|n' sp] [|i] B N; try discriminate; cbn [nth_error map2] in *.
    + injection B as ->. injection N as ->. rewrite gauss_normal by lra. do 2 f_equal. lra.
    + apply IH; assumption.
Qed.
Print Assumptions C126_pedestal.

(** For silicon photomultipliers the counts are taken as they are; other sensors are refused *)
Theorem C126_sensors : forall bins spectrum a m s,
  (exists v, sensor_values SIPM bins spectrum (a, m, s) = Ok v /\ spectra v = spectrum) /\ sensor_values OtherType bins spectrum (a, m, s) = Err ValueError /\
  (length bins = length spectrum -> s <= 0 -> sensor_values PMT bins spectrum (a, m, s) = Err AttributeError).
Proof.
  intros bins spectrum a m s. split; [eexists; split; reflexivity|]. split; [reflexivity|]. intros L S. cbn. unfold scale_of. rewrite L, Nat.eqb_refl. cbn [negb]. destruct (Rle_dec s 0); [reflexivity|lra].
Qed.
Print Assumptions C126_sensors.

Lemma tallest_spec : forall s l i, highest s (i :: l) (tallest s i l).
Proof.
  intros s. induction l as [|j l IH]; intros i; [exists [], []; split; [reflexivity|split; intros ? []]|]. cbn [tallest].
  destruct (Rlt_dec (nth i s 0) (nth j s 0)) as [D|D].
  - destruct (IH j) as (a & b & E & A & B). exists (i :: a), b. split; [rewrite E; reflexivity|]. split; [|exact B]. intros x [<-|X]; [|apply A, X].
    destruct a as [|j' a]; [injection E as E _; rewrite <- E; exact D|]. injection E as <- _. specialize (A _ (or_introl eq_refl)). lra.
  - destruct (IH i) as (a & b & E & A & B). destruct a as [|i' a].
    + injection E as E1 E2. exists [], (j :: l). split; [exact (f_equal (fun i => i :: j :: l) E1)|]. split; [intros ? []|]. intros x [<-|X]; [rewrite <- E1; lra|]. apply B. rewrite <- E2. exact X.
    + injection E as <- E2. exists (i :: j :: a), b. split; [exact (f_equal (fun l => i :: j :: l) E2)|]. split; [|exact B]. pose proof (A _ (or_introl eq_refl)) as AI. intros x [<-|[<-|X]]; [exact AI|lra|]. apply A. right; exact X.
Qed.
Lemma where_spec : forall c bins k, match where_first c k bins with Some i => (k <= i)%nat /\ first_with bins c (i - k) | None => forall j, nth_error bins j <> Some c end.
Proof.
  intros c. induction bins as [|b bins IH]; intros k; cbn [where_first]; [intros [|j]; discriminate|]. destruct (Req_EM_T b c) as [->|N].
  - split; [lia|]. rewrite Nat.sub_diag. split; [reflexivity|]. intros j J. lia.
  - specialize (IH (S k)). destruct (where_first c (S k) bins) as [i|].
    + destruct IH as [L [A B]]. split; [lia|]. replace (i - k)%nat with (S (i - S k))%nat by lia. split; [exact A|]. intros [|j] J; [cbn; intros E; injection E as E; contradiction|]. cbn. apply B. lia.
    + intros [|j]; cbn; [intros E; injection E as E; contradiction|apply IH].
Qed.

(** The bin from which the single photoelectron is fitted: of the peaks found with charge inside the limits, the highest (the first of those); if there
    is none, the bin in the middle of the limits, or the last bin if no bin is there. If the search finds no peak at all it fails *)
Theorem C126_bin : forall find_peaks v bins, match centroid find_peaks v bins with
  | Err e => e = IndexError /\ find_peaks (spectra v) (peak_range v) = []
  | Ok c => find_peaks (spectra v) (peak_range v) <> [] /\ exists inside,
      (forall i, In i inside <-> In i (find_peaks (spectra v) (peak_range v)) /\ min_bin_peak v < nth i bins 0 < max_bin_peak v) /\
      (inside <> [] -> highest (spectra v) inside c) /\
      (inside = [] -> first_with bins ((min_bin_peak v + max_bin_peak v) / 2) c \/ (forall j, nth_error bins j <> Some ((min_bin_peak v + max_bin_peak v) / 2)) /\ c = (length bins - 1)%nat)
  end.
Proof.
  intros find_peaks v bins. unfold centroid. destruct (find_peaks (spectra v) (peak_range v)) as [|p ps] eqn:F; [auto|].
  set (inside := filter _ (p :: ps)). assert (I : forall i, In i inside <-> In i (p :: ps) /\ min_bin_peak v < nth i bins 0 < max_bin_peak v).
  { intros i. unfold inside. rewrite filter_In. destruct (Rlt_dec (min_bin_peak v) (nth i bins 0)); [destruct (Rlt_dec (nth i bins 0) (max_bin_peak v))|]; split; intros [A B]; try discriminate; try (split; [exact A|]); auto; lra. }
  destruct inside as [|i l] eqn:E.
  - pose proof (where_spec ((min_bin_peak v + max_bin_peak v) / 2) bins 0) as W. destruct (where_first _ 0 bins) as [c|].
    + split; [discriminate|]. exists []. split; [exact I|]. split; [congruence|]. intros _. left. destruct W as [_ W]. rewrite Nat.sub_0_r in W. exact W.
    + split; [discriminate|]. exists []. split; [exact I|]. split; [congruence|]. intros _. right. auto.
  - split; [discriminate|]. exists (i :: l). split; [exact I|]. split; [intros _; apply tallest_spec|discriminate].
Qed.
Print Assumptions C126_bin.

Lemma py_slice_pos : forall {A} (c h : nat) (l : list A), (h <= c)%nat -> py_slice (Z.of_nat c - Z.of_nat h) (Z.of_nat c + Z.of_nat h) l = firstn (2 * h) (skipn (c - h) l).
Proof.
  intros A c h l H. unfold py_slice, slice. replace (Z.of_nat c - Z.of_nat h <? 0)%Z with false by (symmetry; apply Z.ltb_ge; lia). replace (Z.of_nat c + Z.of_nat h <? 0)%Z with false by (symmetry; apply Z.ltb_ge; lia).
  f_equal; [lia|]. f_equal. lia.
Qed.

(** The gain and its sigma: the fit is to the bins around the chosen one, from half a width before to half a width after; the gain is the mean of the
    fit above that of the pedestal, and the sigma is what has to be added in squares to that of the pedestal, or one half if it is not wider *)
Theorem C126_gain : forall find_peaks fit v bins a m s c, centroid find_peaks v bins = Ok c -> (half_peak_width v <= c)%nat ->
  let cut (l : list R) := firstn (2 * half_peak_width v) (skipn (c - half_peak_width v) l) in
  match compute_seeds_from_spectrum find_peaks fit v bins (a, m, s) with
  | Ok (gain, sigma) => exists area mean width, fit (cut bins) (cut (spectra v)) (nth c (spectra v) 0, nth c bins 0, p1pe_seed v) = Ok (area, mean, width) /\ gain = mean - m /\
      (width <= s -> sigma = 1 / 2) /\ (s < width -> 0 <= s -> 0 < sigma /\ sigma ^ 2 + s ^ 2 = width ^ 2)
  | Err e => (e = ValueError /\ (In 0 (cut (spectra v)) \/ cut (spectra v) = [])) \/ fit (cut bins) (cut (spectra v)) (nth c (spectra v) 0, nth c bins 0, p1pe_seed v) = Err e
  end.
Proof.
  intros find_peaks fit v bins a m s c C W cut. unfold compute_seeds_from_spectrum. rewrite C. cbn [rbind]. rewrite !py_slice_pos by exact W. fold (cut (spectra v)). fold (cut bins).
  destruct (existsb _ (cut (spectra v))) eqn:E.
  - left. split; [reflexivity|]. left. apply existsb_exists in E. destruct E as (x & I & X). destruct (Req_EM_T x 0) as [->|]; [exact I|discriminate].
  - destruct (length (cut (spectra v)) =? 0)%nat eqn:L; [left; split; [reflexivity|]; right; apply Nat.eqb_eq in L; destruct (cut (spectra v)); [reflexivity|discriminate]|].
    destruct (fit (cut bins) (cut (spectra v)) _) as [[[area mean] width]|e]; cbn [rbind]; [|right; reflexivity]. exists area, mean, width. split; [reflexivity|]. split; [reflexivity|].
    destruct (Rle_dec width s) as [D|D]; (split; [intros; try reflexivity; lra|]); [intros; lra|]. intros D' S. assert (P : 0 < width ^ 2 - s ^ 2) by nra. split; [apply sqrt_lt_R0, P|]. rewrite pow2_sqrt by lra. lra.
Qed.
Print Assumptions C126_gain.

(** But if the bin is less than half a width from the first, the fit is to nothing, unless the bins are few, although there are bins around it *)
Theorem C126_edge : forall find_peaks fit v bins ped c, centroid find_peaks v bins = Ok c -> (c < half_peak_width v)%nat -> (2 * half_peak_width v <= length (spectra v))%nat ->
  compute_seeds_from_spectrum find_peaks fit v bins ped = Err ValueError.
Proof.
  intros find_peaks fit v bins ped c C H L. unfold compute_seeds_from_spectrum. rewrite C. cbn [rbind].
  assert (E : py_slice (Z.of_nat c - Z.of_nat (half_peak_width v)) (Z.of_nat c + Z.of_nat (half_peak_width v)) (spectra v) = []).
  { unfold py_slice, slice. replace (Z.of_nat c - Z.of_nat (half_peak_width v) <? 0)%Z with true by (symmetry; apply Z.ltb_lt; lia). replace (Z.of_nat c + Z.of_nat (half_peak_width v) <? 0)%Z with false by (symmetry; apply Z.ltb_ge; lia).
    replace (Z.to_nat (Z.of_nat c + Z.of_nat (half_peak_width v)) - Z.to_nat (Z.max 0 (Z.of_nat (length (spectra v)) + (Z.of_nat c - Z.of_nat (half_peak_width v)))))%nat with 0%nat by lia. reflexivity. }
  rewrite E. reflexivity.
Qed.
Print Assumptions C126_edge.

(** The seeds from the database are those of the row of the channel, in the table of the sensors of that type *)
Theorem C126_database : forall DataSiPM DataPMT n,
  seeds_db DataSiPM DataPMT SIPM (Z.of_nat n) = match nth_error DataSiPM n with Some r => Ok r | None => Err IndexError end /\
  seeds_db DataSiPM DataPMT PMT (Z.of_nat n) = match nth_error DataPMT n with Some r => Ok r | None => Err IndexError end /\
  seeds_db DataSiPM DataPMT OtherType (Z.of_nat n) = Err ValueError.
Proof.
  intros DataSiPM DataPMT n. assert (A : forall l, iloc l (Z.of_nat n) = match nth_error l n with Some r => Ok r | None => Err IndexError end).
  { intros l. unfold iloc. replace (Z.of_nat n <? 0)%Z with false by (symmetry; apply Z.ltb_ge; lia). replace (Z.of_nat n <? 0)%Z with false by (symmetry; apply Z.ltb_ge; lia). rewrite Nat2Z.id. reflexivity. }
  split; [apply A|]. split; [apply A|reflexivity].
Qed.
Print Assumptions C126_database.

Lemma with_filter (P : R -> Prop) (B : R -> bool) bins : (forall c, B c = true <-> P c) -> forall l, length bins = length l -> those_with P bins l (filter B bins) (chosen B bins l).
Proof.
  intros HB. induction bins as [|c bins IH]; intros [|s l] L; try discriminate L; [constructor|]. unfold chosen in *. cbn [combine filter fst]. destruct (B c) eqn:E; cbn [map snd]; constructor; try (apply IH; now injection L).
  - now apply HB.
  - intros K. apply HB in K. congruence.
Qed.
Lemma errors_are l : Forall2 error_of l (poisson_sigma 1 l).
Proof.
  induction l as [|s l IH]; [constructor|]. unfold poisson_sigma in *. cbn [map]. constructor; [|exact IH]. destruct (Req_EM_T s 0) as [E|E]; split; intros H; [reflexivity|exfalso; lra|contradiction|].
  split; [now apply sqrt_lt_R0|]. cbn [pow]. rewrite Rmult_1_r. apply sqrt_sqrt. lra.
Qed.
(** The number of photons is fitted to the charges below zero (photomultipliers) or within five (silicon photomultipliers), from the ratio of the
    counts to the pedestal there *)
Theorem C126_photons : forall fit bins spectrum a m s t mu, poisson_mu_seed fit t bins spectrum (a, m, s) = Ok mu ->
  let inside c := match t with SIPM => -5 <= c <= 5 | _ => c < 0 end in
  t <> OtherType /\ 0 < s /\ exists n g sel l errs, adds_up inside bins spectrum n /\ adds_up inside bins (map (normal a m s) bins) g /\ g <> 0 /\ fit sel l (n / g) errs = Ok mu /\
    those_with inside bins spectrum sel l /\ match t with SIPM => exists e, errs = Some e /\ Forall2 error_of l e | _ => errs = None end.
Proof.
  intros fit bins spectrum a m s t mu H inside.
  assert (A : forall P errs, scale_of P bins spectrum (a, m, s) <> Ok 0 \/ True -> rbind (scale_of P bins spectrum (a, m, s)) (fun d => fit (filter P bins) (chosen P bins spectrum) d errs) = Ok mu -> (forall c, P c = true <-> inside c) ->
    0 < s /\ exists n g, adds_up inside bins spectrum n /\ adds_up inside bins (map (normal a m s) bins) g /\ g <> 0 /\ fit (filter P bins) (chosen P bins spectrum) (n / g) errs = Ok mu /\ those_with inside bins spectrum (filter P bins) (chosen P bins spectrum)).
  { intros P errs _ E HP. unfold scale_of in E. destruct (length bins =? length spectrum)%nat eqn:L; [|discriminate]. apply Nat.eqb_eq in L. cbn [negb] in E.
    destruct (Rle_dec s 0) as [|S]; [discriminate|]. destruct (Req_EM_T _ 0) as [|G]; [discriminate|]. cbn [rbind] in E. split; [lra|]. do 2 eexists. split; [apply (adds_total _ P HP); split; [exact L|reflexivity]|].
    split; [apply (adds_total _ P HP); split; [rewrite map_length; reflexivity|reflexivity]|].
    assert (EG : total (chosen P bins (map (normal a m s) bins)) = total (map (gauss (a, m, s)) (filter P bins))).
    { clear -S. unfold chosen, total in *. induction bins as [|c bins IH]; [reflexivity|]. cbn [map combine filter fst]. destruct (P c); cbn [map combine filter fst snd fold_right]; [|exact IH]. rewrite IH, gauss_normal by lra. reflexivity. }
    split; [rewrite EG; exact G|]. split; [rewrite EG; exact E|]. now apply with_filter. }
  destruct t; [| |discriminate H]; (split; [discriminate|]).
  - destruct (A central _ (or_intror I) H central_spec) as (S & n & g & A1 & A2 & A3 & A4 & A5). split; [exact S|]. exists n, g. do 3 eexists. split; [exact A1|]. split; [exact A2|]. split; [exact A3|]. split; [exact A4|]. split; [exact A5|]. eexists. split; [reflexivity|apply errors_are].
  - destruct (A negative _ (or_intror I) H negative_spec) as (S & n & g & A1 & A2 & A3 & A4 & A5). split; [exact S|]. exists n, g. do 3 eexists. split; [exact A1|]. split; [exact A2|]. split; [exact A3|]. split; [exact A4|]. split; [exact A5|reflexivity].
Qed.
Print Assumptions C126_photons.

(** All seeds: the total of the counts, a number of photons that is not negative, the gain and its sigma; the lower bounds of the first two hold for
    counts that are not negative. The gain from the counts may be below its bound *)
Theorem C126_seeds : forall find_peaks fit_g fit_s SiPMs PMTs t n bins spectrum ped db seed bounds, seeds_and_bounds find_peaks fit_g fit_s SiPMs PMTs t n bins spectrum ped db = Ok (seed, bounds) ->
  exists mu gain sigma, seed = [total spectrum; mu; gain; sigma] /\ bounds = ([0; 0; 0; 1 / 1000], [None; Some 10000; Some 10000; Some 10000]) /\ 0 <= mu /\
    (forall mu', poisson_mu_seed fit_s t bins spectrum ped = Ok mu' -> 0 <= mu' -> mu = mu') /\
    (if db then seeds_db SiPMs PMTs t n = Ok (gain, sigma) else exists v, sensor_values t bins spectrum ped = Ok v /\ compute_seeds_from_spectrum find_peaks fit_g v bins ped = Ok (gain, sigma)).
Proof.
  intros find_peaks fit_g fit_s SiPMs PMTs t n bins spectrum ped db seed bounds H. unfold seeds_and_bounds in H. destruct (sensor_values t bins spectrum ped) as [v|] eqn:V; [|discriminate]. cbn [rbind] in H.
  destruct (if db then seeds_db SiPMs PMTs t n else compute_seeds_from_spectrum find_peaks fit_g v bins ped) as [[gain sigma]|] eqn:G; [|discriminate]. cbn [rbind fst snd] in H.
  destruct (poisson_mu_seed fit_s t bins spectrum ped) as [mu|] eqn:M; [|discriminate]. cbn [rbind] in H. injection H as <- <-. do 3 eexists. split; [reflexivity|]. split; [reflexivity|].
  split; [destruct (Rlt_dec mu 0); lra|]. split; [intros mu' E P; injection E as <-; destruct (Rlt_dec mu 0); lra|]. destruct db; [exact G|]. exists v. auto.
Qed.
Print Assumptions C126_seeds.

(** The dark spectrum scaled for [mu] photons: unchanged for none, and the scales of independent sources multiply; fewer counts for more photons *)
Theorem C126_dark : forall dark, dark_scaler dark 0 = dark /\ (forall m n, dark_scaler (dark_scaler dark m) n = dark_scaler dark (m + n)) /\
  (forall m n i d, m < n -> nth_error dark i = Some d -> 0 < d -> exists a b, nth_error (dark_scaler dark m) i = Some a /\ nth_error (dark_scaler dark n) i = Some b /\ 0 < b < a).
Proof.
  intros dark. split; [|split].
  - unfold dark_scaler. rewrite Ropp_0, exp_0. rewrite <- (map_id dark) at 2. apply map_ext. intros d. lra.
  - intros m n. unfold dark_scaler. rewrite map_map. apply map_ext. intros d. rewrite Ropp_plus_distr, exp_plus. lra.
  - intros m n i d L N D. unfold dark_scaler. exists (exp (- m) * d), (exp (- n) * d). split; [rewrite nth_error_map, N; reflexivity|]. split; [rewrite nth_error_map, N; reflexivity|]. pose proof (exp_pos (- n)). assert (exp (- n) < exp (- m)) by (apply exp_increasing; lra). split; nra.
Qed.
Print Assumptions C126_dark.

(** A photoelectron that is fitted below the pedestal gives a gain below its bound *)
Theorem C126_bounds_refuted : ~ forall find_peaks fit_g fit_s SiPMs PMTs t n bins spectrum ped db seed lo hi, seeds_and_bounds find_peaks fit_g fit_s SiPMs PMTs t n bins spectrum ped db = Ok (seed, (lo, hi)) -> (forall s, In s spectrum -> 0 <= s) ->
  Forall2 Rle lo seed.
Proof.
  intros F. specialize (F (fun _ _ => [6%nat]) (fun _ _ _ => Ok (1, 1, 1)) (fun _ _ _ _ => Ok 1) [] [] SIPM 0%Z (map (fun i => INR i + 0) (seq 0 20)) (repeat 1 20) (1, 2, 1) false).
  assert (G : exists mu s, seeds_and_bounds (fun _ _ => [6%nat]) (fun _ _ _ => Ok (1, 1, 1)) (fun _ _ _ _ => Ok 1) [] [] SIPM 0%Z (map (fun i => INR i + 0) (seq 0 20)) (repeat 1 20) (1, 2, 1) false = Ok ([total (repeat 1 20); mu; -1; s], ([0; 0; 0; 1 / 1000], [None; Some 10000; Some 10000; Some 10000]))).
  { unfold seeds_and_bounds. cbn [sensor_values rbind]. unfold compute_seeds_from_spectrum, centroid. cbn [spectra peak_range min_bin_peak max_bin_peak half_peak_width p1pe_seed filter].
    assert (E : nth 6 (map (fun i => INR i + 0) (seq 0 20)) 0 = 6) by (cbn; lra). rewrite E. destruct (Rlt_dec 10 6); [lra|].
    assert (W : where_first ((10 + 22) / 2) 0 (map (fun i => INR i + 0) (seq 0 20)) = Some 16%nat).
    { change (map (fun i => INR i + 0) (seq 0 20)) with (map (fun i => INR i + 0) (seq 0 16) ++ (INR 16 + 0) :: map (fun i => INR i + 0) (seq 17 3)).
      assert (A : forall (c : R) l m k b, (forall x, In x l -> x <> c) -> b = c -> where_first c k (l ++ b :: m) = Some (k + length l)%nat).
      { intros c. induction l as [|x l IH]; intros m k b N B; cbn; [destruct (Req_EM_T b c); [f_equal; lia|contradiction]|]. destruct (Req_EM_T x c); [exfalso; apply (N x); [left; reflexivity|assumption]|]. rewrite IH; [f_equal; lia|intros y Y; apply N; right; exact Y|exact B]. }
      rewrite A; [reflexivity| |cbn; lra]. intros x X. apply in_map_iff in X. destruct X as (i & <- & I). apply in_seq in I. assert (INR i < INR 16) by (apply lt_INR; lia). assert (E16 : INR 16 = 16) by (cbn; lra). rewrite E16 in H. lra. }
    rewrite W. cbn [rbind]. assert (X : existsb (fun s => if Req_EM_T s 0 then true else false) (py_slice (Z.of_nat 16 - Z.of_nat 5) (Z.of_nat 16 + Z.of_nat 5) (repeat 1 20)) = false).
    { apply not_true_is_false. intros X. apply existsb_exists in X. destruct X as (x & I & X). rewrite py_slice_pos in I by lia. change (firstn (2 * 5) (skipn (16 - 5) (repeat 1 20))) with (repeat 1 9) in I. apply repeat_spec in I. subst x. destruct (Req_EM_T 1 0); [lra|discriminate]. }
    rewrite X. rewrite py_slice_pos by lia. change (length (firstn (2 * 5) (skipn (16 - 5) (repeat 1%R 20))) =? 0)%nat with false. cbn [rbind].
    unfold poisson_mu_seed, scale_of. rewrite map_length, seq_length, repeat_length. cbn [negb Nat.eqb]. destruct (Rle_dec 1 0); [lra|].
    destruct (Req_EM_T _ 0) as [Z|_].
    - exfalso. assert (P : forall l, 0 <= total (map (gauss (1, 2, 1)) l)).
      { induction l as [|c l IH]; cbn [map total fold_right]; [lra|]. assert (0 < gauss (1, 2, 1) c); [|unfold total in IH; lra]. unfold gauss. pose proof PI_RGT_0. apply Rmult_lt_0_compat; [|apply exp_pos]. apply Rdiv_lt_0_compat; [|lra]. apply Rdiv_lt_0_compat; [lra|]. apply sqrt_lt_R0. lra. }
      assert (C : central (INR 0 + 0) = true) by (apply central_spec; cbn; lra). change (map (fun i => INR i + 0) (seq 0 20)) with ((INR 0 + 0) :: map (fun i => INR i + 0) (seq 1 19)) in Z. cbn [filter] in Z. rewrite C in Z. cbn [map total fold_right] in Z.
      specialize (P (filter central (map (fun i => INR i + 0) (seq 1 19)))). unfold total in P.
      assert (0 < gauss (1, 2, 1) (INR 0 + 0)); [|lra]. unfold gauss. pose proof PI_RGT_0. apply Rmult_lt_0_compat; [|apply exp_pos]. apply Rdiv_lt_0_compat; [|lra]. apply Rdiv_lt_0_compat; [lra|]. apply sqrt_lt_R0. lra.
    - cbn [rbind]. do 2 eexists. cbn [fst snd]. replace (1 - 2) with (-1) by lra. reflexivity. }
  destruct G as (mu & s & G). specialize (F _ _ _ G). assert (Q : forall s, In s (repeat 1 20) -> 0 <= s) by (intros x X; apply repeat_spec in X; lra). specialize (F Q). inversion F as [|? ? ? ? _ F1]; subst. inversion F1 as [|? ? ? ? _ F2]; subst. inversion F2; subst. lra.
Qed.
Print Assumptions C126_bounds_refuted.

(** Cases that meet the hypotheses: two bins of a photomultiplier, one of them with negative charge; a peak found inside the limits, with the bins
    around it fitted; the same peak less than half a width from the first bin *)
Example C126_ex :
  (exists v, sensor_values PMT [-1; 20] [2; 5] (1, 0, 1) = Ok v) /\
  (let v := {| spectra := [3; 4; 5; 6]; peak_range := [1%nat]; min_bin_peak := 10; max_bin_peak := 22; half_peak_width := 1; p1pe_seed := 3; lim_ped := 1 |} in
   centroid (fun _ _ => [0%nat; 1%nat; 2%nat]) v [9; 11; 13; 30] = Ok 2%nat /\
   compute_seeds_from_spectrum (fun _ _ => [0%nat; 1%nat; 2%nat]) (fun b s seed => if Nat.eqb (length b) 2 then Ok (1, 12, 5) else Err ValueError) v [9; 11; 13; 30] (1, 2, 4) = Ok (10, 3)) /\
  (let v := {| spectra := [3; 4; 5; 6]; peak_range := [1%nat]; min_bin_peak := 10; max_bin_peak := 22; half_peak_width := 2; p1pe_seed := 3; lim_ped := 1 |} in
   centroid (fun _ _ => [1%nat]) v [9; 11; 13; 30] = Ok 1%nat /\ compute_seeds_from_spectrum (fun _ _ => [1%nat]) (fun _ _ _ => Ok (1, 12, 5)) v [9; 11; 13; 30] (1, 2, 4) = Err ValueError) /\
  seeds_db [(1, 2); (3, 4)] [(5, 6)] SIPM 1 = Ok (3, 4) /\ seeds_db [(1, 2); (3, 4)] [(5, 6)] PMT 1 = Err IndexError /\
  (exists n, poisson_mu_seed (fun _ _ d _ => Ok (d + 1)) PMT [-1; 20] [2; 5] (1, 0, 1) = Ok n).
Proof.
  assert (G : total (map (gauss (1, 0, 1)) (filter negative [-1; 20])) <> 0).
  { cbn [filter]. assert (A : negative (-1) = true) by (apply negative_spec; lra). assert (B : negative 20 = false) by (apply not_true_is_false; intros X; apply negative_spec in X; lra).
    rewrite A, B. cbn [map total fold_right]. rewrite gauss_normal by lra. assert (0 < normal 1 0 1 (-1)); [|lra]. unfold normal. apply Rdiv_lt_0_compat; [pose proof (exp_pos (- ((-1 - 0) / 1) ^ 2 / 2)); lra|]. assert (0 < sqrt (2 * PI)) by (apply sqrt_lt_R0; pose proof PI_RGT_0; lra). lra. }
  split; [|split; [|split; [|split; [|split]]]].
  - cbn [sensor_values]. unfold scale_of. cbn [length Nat.eqb negb]. destruct (Rle_dec 1 0); [lra|]. destruct (Req_EM_T _ 0); [contradiction|]. eexists. reflexivity.
  - intros v. assert (C : centroid (fun _ _ => [0%nat; 1%nat; 2%nat]) v [9; 11; 13; 30] = Ok 2%nat).
    { unfold centroid, v. cbn [spectra peak_range min_bin_peak max_bin_peak filter nth]. destruct (Rlt_dec 10 9); [lra|]. destruct (Rlt_dec 10 11); [|lra]. destruct (Rlt_dec 11 22); [|lra]. destruct (Rlt_dec 10 13); [|lra]. destruct (Rlt_dec 13 22); [|lra].
      cbn [tallest nth]. destruct (Rlt_dec 4 5); [reflexivity|lra]. }
    split; [exact C|]. unfold compute_seeds_from_spectrum. rewrite C. cbn [rbind]. unfold v. cbn [spectra half_peak_width p1pe_seed]. rewrite !py_slice_pos by lia. cbn [firstn skipn Nat.mul Nat.add Nat.sub existsb].
    destruct (Req_EM_T 4 0); [lra|]. destruct (Req_EM_T 5 0); [lra|]. cbn [orb length Nat.eqb rbind]. destruct (Rle_dec 5 4); [lra|]. replace (12 - 2) with 10 by lra. replace (5 ^ 2 - 4 ^ 2) with (3 * 3) by lra. rewrite sqrt_square by lra. reflexivity.
  - intros v. assert (C : centroid (fun _ _ => [1%nat]) v [9; 11; 13; 30] = Ok 1%nat).
    { unfold centroid, v. cbn [spectra peak_range min_bin_peak max_bin_peak filter nth]. destruct (Rlt_dec 10 11); [|lra]. destruct (Rlt_dec 11 22); [|lra]. reflexivity. }
    split; [exact C|]. apply (C126_edge _ _ _ _ _ 1%nat C); cbn; lia.
  - reflexivity.
  - reflexivity.
  - cbn [poisson_mu_seed]. unfold scale_of. cbn [length Nat.eqb negb]. destruct (Rle_dec 1 0); [lra|]. destruct (Req_EM_T _ 0); [contradiction|]. eexists. reflexivity.
Qed.
