(** C79: the simulated response of the PMTs *)
From Coq Require Import QArith ZArith List Lia Lqa.
From Verif Require Import Base Arrays DbModel DbProps DbThr NoiseModel FeeModel FeeSpec FeeProofs.
Import ListNotations.
Local Open Scope Q_scope.

(** each photoelectron adds one pulse, from its own time on; those of the last samples, shorter than a pulse, are dropped *)
Theorem C79_pulses spe cnt norm : (2 <= length spe)%nat -> (length spe <= length cnt)%nat ->
  let kept := (length cnt - (length spe - 1))%nat in let out := spe_pulse_from_vector spe cnt norm in
  length out = length cnt /\
  (forall t, (t < length cnt)%nat -> nth t out 0 == sumF (fun i => if (i <=? t)%nat then nth i cnt 0 * (norm * nth (t - i) spe 0) else 0) (seq 0 kept)) /\
  sumQ out == sumQ (firstn kept cnt) * (norm * sumQ spe).
Proof.
  intros H1 H2. cbn zeta. unfold spe_pulse_from_vector, without_end. destruct (length spe) as [|[|n]] eqn:En; [lia|lia|]. set (kept := (length cnt - (S (S n) - 1))%nat). replace (length cnt - S n)%nat with kept by (unfold kept; lia). set (b := map (fun x => x * norm) spe). assert (Lb : length b = S (S n)) by (unfold b; now rewrite map_length). assert (Lk : length (firstn kept cnt) = kept) by (rewrite firstn_length; unfold kept; lia).
  split; [rewrite length_convolve by (unfold kept in *; lia); unfold kept in *; lia|]. split.
  - intros t Ht. rewrite nth_convolve by (unfold kept in *; lia). unfold conv_at. rewrite Lk. apply sumF_ext. intros i Hi. apply in_seq in Hi. destruct (i <=? t)%nat; [|reflexivity]. rewrite nth_firstn. destruct (Nat.ltb_spec i kept); [|lia]. assert (Eb : nth (t - i) b 0 == norm * nth (t - i) spe 0).
    { unfold b. clear. generalize (t - i)%nat. induction spe as [|x l IH]; intros [|k]; cbn; try ring. apply IH. } rewrite Eb. reflexivity.
  - rewrite sum_conv by (unfold kept in *; lia). apply Qmult_comp; [reflexivity|]. unfold b. clear. induction spe as [|x l IH]; cbn; [ring|]. rewrite IH. ring.
Qed.
Print Assumptions C79_pulses.
(** a buffer shorter than the pulse gives no waveform at all *)
Theorem C79_short_refuted : spe_pulse_from_vector (spe_shape 1 2 1) [3; 0; 0; 0] 1 = [] /\ length (spe_pulse_from_vector (spe_shape 1 2 1) [3; 0; 0; 0; 0] 1) = 5%nat.
Proof. split; reflexivity. Qed.
(** the light of the last samples leaves no trace *)
Theorem C79_end_refuted : Forall (fun x => x == 0) (spe_pulse_from_vector (spe_shape 1 2 1) [0; 0; 0; 0; 7; 7; 7; 7] 1) /\ length (spe_pulse_from_vector (spe_shape 1 2 1) [0; 0; 0; 0; 7; 7; 7; 7] 1) = 8%nat.
Proof. split; [|reflexivity]. vm_compute. repeat constructor. Qed.

(** the pulse of one photoelectron, and a train of them *)
Theorem C79_one_pulse spe n nmax : (0 < length spe)%nat -> (n < nmax)%nat -> exists out, spe_pulse spe n nmax = Ok out /\ length out = (nmax + length spe - 1)%nat /\
  forall t, nth t out 0 == if (n <=? t)%nat then nth (t - n) spe 0 else 0.
Proof.
  intros Hs Hn. unfold spe_pulse. destruct (Nat.ltb_spec n nmax); [|lia]. eexists. split; [reflexivity|]. assert (Lu : length (upd n 1 (repeat 0 nmax)) = nmax) by (now rewrite length_upd, repeat_length). split; [rewrite length_convolve by lia; lia|]. intros t. destruct (Nat.lt_ge_cases t (nmax + length spe - 1)) as [C|C].
  - rewrite nth_convolve by lia. unfold conv_at. rewrite Lu. assert (Nu : forall i, nth i (upd n 1 (repeat 0 nmax)) 0 = if (i =? n)%nat then 1 else 0).
    { clear -Hn. revert n Hn. induction nmax as [|m IH]; intros n Hn i; [lia|]. destruct n as [|n]; cbn [repeat upd]; [destruct i as [|i]; cbn; [reflexivity|apply nth_repeat]|]. destruct i as [|i]; cbn; [reflexivity|]. apply IH. lia. }
    assert (G : forall l, NoDup l -> In n l -> sumF (fun i => if (i <=? t)%nat then nth i (upd n 1 (repeat 0 nmax)) 0 * nth (t - i) spe 0 else 0) l == if (n <=? t)%nat then nth (t - n) spe 0 else 0).
    { induction l as [|a l IH]; intros N I; [destruct I|]. apply NoDup_cons_iff in N as [N1 N2]. rewrite sumF_cons. destruct (Nat.eq_dec a n) as [->|Ne].
      - rewrite (sumF_zero _ l); [rewrite Nu, Nat.eqb_refl; destruct (n <=? t)%nat; ring|]. intros i Hi. rewrite Nu. destruct (Nat.eqb_spec i n) as [->|]; [contradiction|]. destruct (i <=? t)%nat; ring.
      - destruct I as [I|I]; [contradiction|]. rewrite (IH N2 I), Nu. destruct (Nat.eqb_spec a n); [contradiction|]. destruct (a <=? t)%nat; ring. }
    apply G; [apply seq_NoDup|apply in_seq; lia].
  - rewrite nth_overflow by (rewrite length_convolve; lia). destruct (Nat.leb_spec n t); [|reflexivity]. rewrite nth_overflow by lia. reflexivity.
Qed.
Print Assumptions C79_one_pulse.

(** ---- the waveforms ---- *)
Lemma pmt_signal_len e k cnt : (2 <= length (spe e))%nat -> (length (spe e) <= length cnt)%nat -> length (pmt_signal e k cnt) = ((length cnt + scale e - 1) / scale e)%nat.
Proof. intros H1 H2. unfold pmt_signal. rewrite length_decimate. destruct (C79_pulses (spe e) cnt (k / adc_ref e) H1 H2) as [L _]. now rewrite L. Qed.
Lemma length_map2_min {A B C} (f : A -> B -> C) l m : length (map2 f l m) = Nat.min (length l) (length m).
Proof. revert m. induction l as [|a l IH]; intros [|b m]; cbn; [reflexivity|reflexivity|reflexivity|]. now rewrite IH. Qed.

(** with as many samples as a whole number of samples of the electronics the waveforms come out, with that number *)
Definition noises_fit (e : electronics) (n : nat) (noise_in noise_daq low : list Q) : Prop :=
  length noise_in = ((n + scale e - 1) / scale e)%nat /\ length noise_daq = ((n + scale e - 1) / scale e)%nat /\ length low = buffer_length e n.
Lemma response_unfold e pmt k cnt nin nd low : (2 <= length (spe e))%nat -> (length (spe e) <= length cnt)%nat -> noises_fit e (length cnt) nin nd low ->
  pmt_response e pmt k cnt nin nd low =
  if ((length cnt + scale e - 1) / scale e =? length cnt / scale e)%nat then
    Ok (map (fun x => offset e - x) (map2 Qminus (map2 Qplus (map (fun x => x * v_to_adc e) (lfilter (fst (fee_filter e pmt)) (snd (fee_filter e pmt)) (map2 Qplus (pmt_signal e k cnt) nin))) nd) low),
        map (fun x => x * v_to_adc e) (lfilter (fst (lpf e)) (snd (lpf e)) (pmt_signal e k cnt)))
  else Err ValueError.
Proof.
  intros H1 H2 (N1 & N2 & N3). unfold pmt_response. destruct (fee_filter e pmt) as [b a]. cbn [fst snd]. rewrite length_map2_min, map_length, length_lfilter, length_map2_min, (pmt_signal_len e k cnt H1 H2), N1, N2, N3, !Nat.min_id. unfold buffer_length. reflexivity.
Qed.
Lemma ceil_floor n s : (0 < s)%nat -> ((n + s - 1) / s = n / s <-> n mod s = 0)%nat.
Proof.
  intros Hs. pose proof (Nat.div_mod n s ltac:(lia)) as E. pose proof (Nat.mod_upper_bound n s ltac:(lia)) as B. set (q := (n / s)%nat) in *. set (r := (n mod s)%nat) in *. destruct (Nat.eq_dec r 0) as [Z|Z].
  - split; [intros _; exact Z|]. intros _. symmetry. apply (Nat.div_unique _ _ _ (s - 1)); nia.
  - assert (D : ((n + s - 1) / s = q + 1)%nat) by (symmetry; apply (Nat.div_unique _ _ _ (r - 1)); nia). split; intros K; lia.
Qed.
Theorem C79_length e pmt k cnt nin nd low : (0 < scale e)%nat -> (2 <= length (spe e))%nat -> (length (spe e) <= length cnt)%nat -> noises_fit e (length cnt) nin nd low ->
  (length cnt mod scale e = 0 -> exists rwf blr, pmt_response e pmt k cnt nin nd low = Ok (rwf, blr) /\ length rwf = length cnt / scale e /\ length blr = length cnt / scale e)%nat /\
  (length cnt mod scale e <> 0 -> pmt_response e pmt k cnt nin nd low = Err ValueError)%nat.
Proof.
  intros Hs H1 H2 HN. rewrite (response_unfold e pmt k cnt nin nd low H1 H2 HN). destruct HN as (N1 & N2 & N3). pose proof (ceil_floor (length cnt) (scale e) Hs) as CF. split; intros M.
  - apply CF in M. rewrite M, Nat.eqb_refl. eexists _, _. split; [reflexivity|]. rewrite !map_length, !length_map2_min, map_length, !length_lfilter, length_map2_min, (pmt_signal_len e k cnt H1 H2), N1, N2, N3. unfold buffer_length. rewrite M, !Nat.min_id. split; reflexivity.
  - destruct (Nat.eqb_spec ((length cnt + scale e - 1) / scale e) (length cnt / scale e)) as [E|E]; [|reflexivity]. exfalso. apply M, CF, E.
Qed.
Print Assumptions C79_length.

(** light adds up: the response to the sum of two signals is the sum of the responses; the noise is added once *)
Theorem C79_linear e pmt k c cnt u v nin nd low nin0 nd0 low0 : (2 <= length (spe e))%nat -> (length (spe e) <= length cnt)%nat -> combined c cnt u v ->
  noises_fit e (length cnt) nin nd low -> noises_fit e (length cnt) nin0 nd0 low0 -> Forall (fun x => x == 0) nin0 -> Forall (fun x => x == 0) nd0 -> Forall (fun x => x == 0) low0 ->
  forall rwf blr, pmt_response e pmt k cnt nin nd low = Ok (rwf, blr) ->
  exists rwf_u blr_u rwf_v blr_v, pmt_response e pmt k u nin0 nd0 low0 = Ok (rwf_u, blr_u) /\ pmt_response e pmt k v nin nd low = Ok (rwf_v, blr_v) /\
    combined c blr blr_u blr_v /\ combined c (map (fun x => offset e - x) rwf) (map (fun x => offset e - x) rwf_u) (map (fun x => offset e - x) rwf_v).
Proof.
  intros H1 H2 HC HN HN0 Z1 Z2 Z3 rwf blr HR. destruct (combined_len _ _ _ _ HC) as [L1 L2]. rewrite (response_unfold e pmt k cnt nin nd low H1 H2 HN) in HR. rewrite (response_unfold e pmt k u nin0 nd0 low0 H1) by (rewrite <- L1; assumption). rewrite (response_unfold e pmt k v nin nd low H1) by (rewrite <- L2; assumption). rewrite <- L1, <- L2.
  destruct (Nat.eqb_spec ((length cnt + scale e - 1) / scale e) (length cnt / scale e)) as [E|E]; [|discriminate]. injection HR as <- <-. eexists _, _, _, _. split; [reflexivity|]. split; [reflexivity|].
  assert (S : combined c (pmt_signal e k cnt) (pmt_signal e k u) (pmt_signal e k v)) by (now apply combined_decimate, combined_pulse).
  assert (Ls : length (pmt_signal e k cnt) = (length cnt / scale e)%nat) by (rewrite pmt_signal_len by assumption; exact E). assert (Lu : length (pmt_signal e k u) = (length cnt / scale e)%nat) by (destruct (combined_len _ _ _ _ S); congruence).
  destruct HN as (N1 & N2 & N3), HN0 as (M1 & M2 & M3). unfold buffer_length in *. split; [now apply combined_map, combined_lfilter|].
  assert (D : forall l, Forall2 Qeq (map (fun x => offset e - x) (map (fun x => offset e - x) l)) l) by (induction l as [|x l IH]; cbn; constructor; [ring|exact IH]).
  assert (T : forall l l' u u' v v', Forall2 Qeq l l' -> Forall2 Qeq u u' -> Forall2 Qeq v v' -> combined c l' u' v' -> combined c l u v).
  { clear. intros l l' u u' v v' F1 F2 F3 H. revert l u v F1 F2 F3. induction H as [|x y z l' u' v' E H IH]; intros l u v F1 F2 F3; [inversion F1; inversion F2; inversion F3; constructor|]. inversion F1 as [|a1 b1 c1 d1 A1 B1]; inversion F2 as [|a2 b2 c2 d2 A2 B2]; inversion F3 as [|a3 b3 c3 d3 A3 B3]; subst. constructor; [|now apply IH]. rewrite A1, A2, A3. exact E. }
  eapply T; [apply D|apply D|apply D|]. apply combined_minus; [|rewrite length_map2_min, map_length, length_lfilter, length_map2_min; lia|rewrite length_map2_min, map_length, length_lfilter, length_map2_min; lia|assumption].
  apply combined_plus; [|rewrite map_length, length_lfilter, length_map2_min; lia|rewrite map_length, length_lfilter, length_map2_min; lia|assumption].
  apply combined_map, combined_lfilter, combined_plus; [exact S|lia|lia|assumption].
Qed.
Print Assumptions C79_linear.

(** the waveforms do not depend on later light: only on that up to half the length of the decimation filter after the sample *)
Theorem C79_causal e pmt k cnt cnt' nin nd low t n rwf blr rwf' blr' : agree_before t cnt cnt' -> (scale e * (n - 1) + length (fir e) / 2 < t \/ n = 0)%nat ->
  pmt_response e pmt k cnt nin nd low = Ok (rwf, blr) -> pmt_response e pmt k cnt' nin nd low = Ok (rwf', blr') -> agree_before n rwf rwf' /\ agree_before n blr blr'.
Proof.
  intros HA Hn. assert (S : agree_before n (pmt_signal e k cnt) (pmt_signal e k cnt')) by (apply agree_decimate with t; [now apply agree_pulse|exact Hn]).
  unfold pmt_response. destruct (fee_filter e pmt) as [b a]. destruct (Nat.eqb _ _); [|discriminate]. destruct (Nat.eqb _ _); [|intros; discriminate]. intros R R'. injection R as <- <-. injection R' as <- <-. split.
  - apply agree_map; [intros x x' E; now rewrite E|]. apply agree_map2; [intros x x' y E; now rewrite E|]. apply agree_map2; [intros x x' y E; now rewrite E|]. apply agree_map; [intros x x' E; now rewrite E|]. apply agree_lfilter. apply agree_map2; [intros x x' y E; now rewrite E|exact S].
  - apply agree_map; [intros x x' E; now rewrite E|]. now apply agree_lfilter.
Qed.
Print Assumptions C79_causal.

(** ---- low-frequency noise ---- *)
Lemma concat_repeat_nth {A} (l : list A) n b i : (b < n)%nat -> (i < length l)%nat -> nth_error (concat (repeat l n)) (b * length l + i) = nth_error l i.
Proof.
  revert b. induction n as [|n IH]; intros b Hb Hi; [lia|]. cbn [repeat concat]. destruct b as [|b].
  - cbn [Nat.mul plus]. now rewrite nth_error_app1.
  - rewrite nth_error_app2 by (cbn; lia). replace (S b * length l + i - length l)%nat with (b * length l + i)%nat by (cbn; lia). apply IH; lia.
Qed.
Lemma concat_rows_nth {A} (ls : list (list A)) m b i l : Forall (fun l => length l = m) ls -> nth_error ls b = Some l -> (i < m)%nat -> nth_error (concat ls) (b * m + i) = nth_error l i.
Proof.
  intros F. revert b. induction F as [|l0 ls Hl F IH]; intros [|b] H Hi; cbn in H; try discriminate; cbn [concat].
  - injection H as ->. cbn [Nat.mul plus]. apply nth_error_app1. lia.
  - rewrite nth_error_app2 by (cbn; lia). replace (S b * m + i - length l0)%nat with (b * m + i)%nat by (cbn; lia). now apply IH.
Qed.
Lemma length_concat_rows {A} (ls : list (list A)) m : Forall (fun l => length l = m) ls -> length (concat ls) = (length ls * m)%nat.
Proof. induction 1 as [|l ls Hl F IH]; cbn; [reflexivity|]. now rewrite app_length, IH, Hl. Qed.
Lemma nth_error_combine {A B} (l : list A) (m : list B) i a b : nth_error l i = Some a -> nth_error m i = Some b -> nth_error (combine l m) i = Some (a, b).
Proof. revert l m. induction i as [|i IH]; intros [|x l] [|y m] H1 H2; try discriminate; cbn in *; [congruence|now apply IH]. Qed.
Lemma nth_slice {A} (l : list A) a b i d : (a + i < b)%nat -> (b <= length l)%nat -> nth i (slice a b l) d = nth (a + i) l d.
Proof. intros H1 H2. unfold slice. rewrite nth_firstn. destruct (Nat.ltb_spec i (b - a)); [|lia]. revert a H1 H2 H. revert i b. induction l as [|x l IH]; intros i b a H1 H2 H; [cbn in H2; lia|]. destruct a as [|a]; [reflexivity|]. cbn [skipn plus nth]. apply (IH i (b - 1)%nat); cbn in H2; lia. Qed.

Theorem C79_low_frequency cos n bin_width n_febox freqs mags phases mapping sens_id :
  length mags = length freqs -> Forall (fun r => length r = n_febox) mags -> length phases = (n_febox * length freqs)%nat ->
  exists noise, box_noise cos n bin_width n_febox freqs mags phases = Ok noise /\
  forall pmt s box, nth_error sens_id pmt = Some s -> (exists before after, mapping = before ++ (s, box) :: after /\ forall m, In m before -> fst m <> s) -> (box < n_febox)%nat ->
  exists wf, get_low_frequency_noise noise mapping sens_id pmt = Ok wf /\ length wf = n /\
    forall t, (t < n)%nat -> nth t wf 0 == sumF (fun j => 2 * nth box (nth j mags []) 0 * cos (nth j freqs 0 * (bin_width * qnat t) + nth (box * length freqs + j) phases 0)) (seq 0 (length freqs)).
Proof.
  intros Lm Fm Lp. set (F := length freqs) in *. unfold box_noise. set (tb := map (fun i => bin_width * qnat i) (seq 0 n)). set (rows := transpose n_febox mags). set (noise := map2 (fun fm p => frequency_contribution cos tb (fst fm) (snd fm) p) (combine (concat (repeat freqs n_febox)) (concat rows)) phases).
  assert (Fr : Forall (fun l => length l = F) rows) by (unfold rows, transpose; apply Forall_map, Forall_forall; intros c _; now rewrite map_length).
  assert (Lr : length rows = n_febox) by (unfold rows, transpose; now rewrite map_length, seq_length).
  assert (L1 : length (concat (repeat freqs n_febox)) = (n_febox * F)%nat) by (rewrite (length_concat_rows _ F), repeat_length; [reflexivity|]; apply Forall_forall; intros l Hl; now apply repeat_spec in Hl as ->).
  assert (L2 : length (concat rows) = (n_febox * F)%nat) by (rewrite (length_concat_rows _ F Fr), Lr; reflexivity).
  assert (Ln : length noise = (n_febox * F)%nat) by (unfold noise; rewrite length_map2_min, combine_length; lia).
  unfold reshape. fold F. rewrite Ln, Nat.eqb_refl. cbn [rbind]. eexists. split; [reflexivity|]. intros pmt s box Hs (before & after & Em & Hb) Hbox. unfold get_low_frequency_noise. rewrite Hs.
  assert (Ef : exists rest, filter (fun m => Z.eqb (fst m) s) mapping = (s, box) :: rest).
  { rewrite Em, filter_app. assert (N : filter (fun m => Z.eqb (fst m) s) before = []) by (clear -Hb; induction before as [|m l IH]; [reflexivity|]; cbn; destruct (Z.eqb_spec (fst m) s) as [E|E]; [exfalso; now apply (Hb m (or_introl eq_refl))|]; apply IH; intros x Hx; apply Hb; now right). rewrite N. cbn. rewrite Z.eqb_refl. eexists. reflexivity. }
  destruct Ef as (rest & ->). cbn [snd]. rewrite nth_error_map, nth_error_map.
  assert (Eq : nth_error (seq 0 n_febox) box = Some box) by (rewrite (nth_error_nth' _ 0%nat) by (rewrite seq_length; assumption); now rewrite seq_nth). rewrite Eq. cbn [option_map]. eexists. split; [reflexivity|]. unfold sum_rows. split; [now rewrite map_length, seq_length|].
  intros t Ht. rewrite nth_map_seq. destruct (Nat.ltb_spec t n); [|lia].
  set (sl := slice (box * F) (box * F + F) noise). assert (Bd : (box * F + F <= n_febox * F)%nat) by nia. assert (Lsl : length sl = F) by (unfold sl, slice; rewrite firstn_length, skipn_length; lia).
  assert (E : sumF (fun r => nth t r 0) sl == sumF (fun j => nth t (nth j sl []) 0) (seq 0 F)).
  { rewrite <- Lsl. clear. induction sl as [|x l IH]; [reflexivity|]. cbn [length seq]. rewrite !sumF_cons, <- seq_shift. unfold sumF in *. rewrite map_map. cbn [nth]. now rewrite IH. }
  rewrite E. apply sumF_ext. intros j Hj. apply in_seq in Hj. unfold sl. rewrite nth_slice by lia.
  assert (En : nth_error noise (box * F + j) = Some (frequency_contribution cos tb (nth j freqs 0) (nth box (nth j mags []) 0) (nth (box * F + j) phases 0))).
  { unfold noise. rewrite (nth_error_map2 _ _ _ _ (nth j freqs 0, nth box (nth j mags []) 0) (nth (box * F + j) phases 0)); [reflexivity| |apply nth_error_nth'; lia]. apply nth_error_combine.
    - unfold F at 1. rewrite concat_repeat_nth by (unfold F in *; lia). apply nth_error_nth'. unfold F in *; lia.
    - erewrite (concat_rows_nth rows F box j (map (fun r => nth box r 0) mags) Fr); [|unfold rows, transpose; rewrite nth_error_map, Eq; reflexivity|lia]. rewrite nth_error_map. rewrite (nth_error_nth' mags []) by lia. reflexivity. }
  rewrite (nth_error_nth _ _ _ En). unfold frequency_contribution, tb. rewrite map_map, nth_map_seq. destruct (Nat.ltb_spec t n); [reflexivity|lia].
Qed.
Print Assumptions C79_low_frequency.
(** a PMT that is in no box has no noise: the simulation fails *)
Theorem C79_unmapped_refuted : get_low_frequency_noise [[1; 2]] [(7%Z, 0%nat)] [7%Z; 8%Z] 1 = Err IndexError /\ get_low_frequency_noise [[1; 2]] [(7%Z, 0%nat)] [7%Z; 8%Z] 0 = Ok [1; 2].
Proof. split; reflexivity. Qed.

(** ---- example ---- *)
Definition toy : electronics := {| spe := spe_shape 4 2 1; scale := 2; fir := [1#4; 1#2; 1#4]; lpf := ([1#2], [1; -(1#2)]); fee_filter := fun _ => ([1; -(1)], [1; -(1#2)]); v_to_adc := 10; offset := 2500; adc_ref := 2 |}.
Example C79_example : exists rwf blr, pmt_response toy 0 2 [0; 1; 0; 0; 0; 0; 0; 0] [0; 0; 0; 0] [1; 0; 0; 0] [0; 0; 2; 0] = Ok (rwf, blr) /\
  Forall2 Qeq rwf [2499; 2470; 2487; 5045#2] /\ Forall2 Qeq blr [0; 15; 45#2; 45#4].
Proof. eexists _, _. split; [reflexivity|]. split; vm_compute; repeat constructor. Qed.
Print Assumptions C79_short_refuted.
Print Assumptions C79_end_refuted.
Print Assumptions C79_unmapped_refuted.
