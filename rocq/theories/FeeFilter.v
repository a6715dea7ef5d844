(** C79: the filters of the electronics, and the waveforms of a PMT sample by sample *)
From Coq Require Import QArith ZArith List Lia Lqa.
From Verif Require Import Base Arrays DbModel NoiseModel FeeModel WfmModel WfmProps FeeModel FeeSpec FeeProofs FeeProps FeeShape.
Import ListNotations.
Local Open Scope Q_scope.

(** the samples of [y] follow those of [x] according to the coefficients: sum a[i] y[t-i] = sum b[i] x[t-i], with nothing before the first sample *)
Definition recursive_filter (b a x y : list Q) : Prop :=
  length y = length x /\
  forall t, (t < length x)%nat -> sumF (fun i => nth i a 0 * nth (t - i) y 0) (seq 0 (S t)) == sumF (fun i => nth i b 0 * nth (t - i) x 0) (seq 0 (S t)).

Lemma dot_sum u v : dot u v == sumF (fun i => nth i u 0 * nth i v 0) (seq 0 (length v)).
Proof.
  revert u. induction v as [|y v IH]; intros [|x u].
  - reflexivity.
  - reflexivity.
  - unfold dot, map2. cbn [sumQ fold_right]. symmetry. apply sumF_zero. intros i _. destruct i; cbn [nth]; ring.
  - change (dot (x :: u) (y :: v)) with (x * y + dot u v). rewrite IH. cbn [length seq]. rewrite sumF_cons. cbn [nth]. apply Qplus_comp; [reflexivity|]. rewrite <- seq_shift, sumF_map. apply sumF_ext. intros i _. reflexivity.
Qed.
Lemma lfilter_from_nth b a : forall x xs ys t, (t < length x)%nat ->
  nth t (lfilter_from b a xs ys x) 0 = (dot b (rev (firstn (S t) x) ++ xs) - dot (tl a) (rev (firstn t (lfilter_from b a xs ys x)) ++ ys)) / hd 1 a.
Proof.
  induction x as [|x0 x IH]; intros xs ys t H; [cbn in H; lia|]. cbn [lfilter_from]. cbv zeta. set (y0 := (dot b (x0 :: xs) - dot (tl a) ys) / hd 1 a). destruct t as [|t]; [reflexivity|].
  cbn [nth]. cbn [length] in H. rewrite (IH (x0 :: xs) (y0 :: ys) t) by lia. cbn [firstn]. cbn [rev]. rewrite <- !app_assoc. reflexivity.
Qed.
Lemma nth_rev_firstn (l : list Q) n i : (i < n <= length l)%nat -> nth i (rev (firstn n l)) 0 = nth (n - 1 - i) l 0.
Proof.
  intros H. assert (L : length (firstn n l) = n) by (apply firstn_length_le; lia). rewrite rev_nth by lia. rewrite L. replace (n - S i)%nat with (n - 1 - i)%nat by lia.
  rewrite <- (firstn_skipn n l) at 2. rewrite app_nth1 by lia. reflexivity.
Qed.
Theorem C79_filter b a0 al x : ~ a0 == 0 -> recursive_filter b (a0 :: al) x (lfilter b (a0 :: al) x).
Proof.
  intros Ha. split; [apply length_lfilter|]. intros t Ht. set (y := lfilter b (a0 :: al) x). assert (Ly : length y = length x) by apply length_lfilter.
  set (R := sumF (fun i => nth i b 0 * nth (t - i) x 0) (seq 0 (S t))). cbn [seq]. rewrite sumF_cons. cbn [nth]. rewrite Nat.sub_0_r. rewrite <- seq_shift, sumF_map. cbn [nth].
  assert (E : nth t y 0 == (R - sumF (fun i => nth i al 0 * nth (t - S i) y 0) (seq 0 t)) / a0).
  { unfold y at 1, lfilter. rewrite lfilter_from_nth by assumption. fold (lfilter b (a0 :: al) x). fold y. cbn [tl hd]. rewrite !app_nil_r, !dot_sum, !rev_length, !firstn_length_le by lia.
    unfold R. apply Qmult_comp; [|reflexivity]. apply Qplus_comp; [|apply Qopp_comp].
    - apply sumF_ext. intros i Hi. apply in_seq in Hi. rewrite nth_rev_firstn by lia. replace (S t - 1 - i)%nat with (t - i)%nat by lia. reflexivity.
    - apply sumF_ext. intros i Hi. apply in_seq in Hi. rewrite nth_rev_firstn by lia. replace (t - 1 - i)%nat with (t - S i)%nat by lia. reflexivity. }
  rewrite E. set (s := sumF _ (seq 0 t)). clearbody R s. field. assumption.
Qed.
Print Assumptions C79_filter.

Lemma nth_decimate s h l n : (n < (length l + s - 1) / s)%nat -> nth n (decimate s h l) 0 = fir_at h l (s * n).
Proof. intros H. unfold decimate. rewrite nth_map_seq. destruct (Nat.ltb_spec n ((length l + s - 1) / s)); [reflexivity|lia]. Qed.
(** the electronics divides by the first coefficient of its filters *)
Definition good_filter (f : list Q * list Q) : Prop := exists a0 al, snd f = a0 :: al /\ ~ a0 == 0.
(** the current of the photoelectrons at time [t]: one pulse each, but for those of the last samples *)
Definition current (e : electronics) (k : Q) (cnt : list Q) (t : nat) : Q :=
  sumF (fun i => if (i <=? t)%nat then nth i cnt 0 * (k / adc_ref e * nth (t - i) (spe e) 0) else 0) (seq 0 (length cnt - (length (spe e) - 1))).
(** the signal that is sampled: the current around each [scale]-th sample, weighted with the coefficients of the decimation, which are centred; nothing outside the buffer *)
Definition sampled (e : electronics) (k : Q) (cnt : list Q) (n : nat) : Q :=
  sumF (fun j => let m := (scale e * n + length (fir e) / 2)%nat in if ((j <=? m) && (m - j <? length cnt))%nat then nth j (fir e) 0 * current e k cnt (m - j) else 0) (seq 0 (length (fir e))).
Theorem C79_waveforms e pmt k cnt nin nd low : (0 < scale e)%nat -> (2 <= length (spe e))%nat -> (length (spe e) <= length cnt)%nat -> noises_fit e (length cnt) nin nd low ->
  (length cnt mod scale e = 0)%nat -> good_filter (fee_filter e pmt) -> good_filter (lpf e) ->
  exists signal shaped clean rwf blr, pmt_response e pmt k cnt nin nd low = Ok (rwf, blr) /\
    length signal = (length cnt / scale e)%nat /\ (forall n, (n < length signal)%nat -> nth n signal 0 == sampled e k cnt n) /\
    recursive_filter (fst (fee_filter e pmt)) (snd (fee_filter e pmt)) (map2 Qplus signal nin) shaped /\ recursive_filter (fst (lpf e)) (snd (lpf e)) signal clean /\
    length rwf = length signal /\ length blr = length signal /\
    forall n, (n < length signal)%nat -> nth n rwf 0 == offset e - (nth n shaped 0 * v_to_adc e + nth n nd 0 - nth n low 0) /\ nth n blr 0 == nth n clean 0 * v_to_adc e.
Proof.
  intros Hs H1 H2 HN M (a0 & al & Ea & Ha) (c0 & cl & Ec & Hc). rewrite (response_unfold e pmt k cnt nin nd low H1 H2 HN). destruct HN as (N1 & N2 & N3). pose proof (proj2 (ceil_floor (length cnt) (scale e) Hs) M) as CF. rewrite CF in N1, N2. rewrite CF, Nat.eqb_refl. unfold buffer_length in N3.
  set (signal := pmt_signal e k cnt). assert (LS : length signal = (length cnt / scale e)%nat) by (unfold signal; rewrite (pmt_signal_len e k cnt H1 H2); exact CF).
  set (shaped := lfilter (fst (fee_filter e pmt)) (snd (fee_filter e pmt)) (map2 Qplus signal nin)). set (clean := lfilter (fst (lpf e)) (snd (lpf e)) signal).
  assert (Lsh : length shaped = length signal) by (unfold shaped; rewrite length_lfilter, length_map2_min, N1, LS; apply Nat.min_id). assert (Lc : length clean = length signal) by (unfold clean; apply length_lfilter).
  exists signal, shaped, clean. eexists _, _. split; [reflexivity|]. split; [exact LS|]. split; [|split; [|split; [|split; [|split]]]].
  - intros n Hn. unfold signal, pmt_signal. rewrite nth_decimate by (rewrite (proj1 (C79_pulses (spe e) cnt (k / adc_ref e) H1 H2)); rewrite CF; lia). unfold fir_at, sampled. apply sumF_ext. intros j Hj. cbv zeta. set (m := (scale e * n + length (fir e) / 2)%nat).
    destruct (Nat.leb_spec j m) as [L|L]; [|reflexivity]. cbn [andb]. destruct (C79_pulses (spe e) cnt (k / adc_ref e) H1 H2) as (LP & NP & _). destruct (Nat.ltb_spec (m - j) (length cnt)) as [C|C]; [rewrite NP by assumption; reflexivity|]. rewrite (nth_overflow (spe_pulse_from_vector (spe e) cnt (k / adc_ref e))) by (rewrite LP; lia). ring.
  - unfold shaped. rewrite Ea. now apply C79_filter.
  - unfold clean. rewrite Ec. now apply C79_filter.
  - rewrite map_length, !length_map2_min, map_length, Lsh, LS, N2, N3. now rewrite !Nat.min_id.
  - now rewrite map_length.
  - intros n Hn. split.
    + rewrite (nth_indep _ 0 (offset e - 0)) by (rewrite map_length, !length_map2_min, map_length, Lsh, LS, N2, N3, !Nat.min_id; lia). rewrite (map_nth (fun x => offset e - x)). rewrite nth_map2 with (da := 0) (db := 0) by (rewrite ?length_map2_min, ?map_length, ?Lsh, ?LS, ?N2, ?N3, ?Nat.min_id; lia).
      rewrite nth_map2 with (da := 0 * v_to_adc e) (db := 0) by (rewrite ?map_length, ?Lsh, ?LS, ?N2; lia). rewrite (map_nth (fun x => x * v_to_adc e)). reflexivity.
    + rewrite (nth_indep _ 0 (0 * v_to_adc e)) by (rewrite map_length; lia). rewrite (map_nth (fun x => x * v_to_adc e)). reflexivity.
Qed.
Print Assumptions C79_waveforms.
Example C79_waveforms_ex : noises_fit toy 8 [0; 0; 0; 0] [1; 0; 0; 0] [0; 0; 2; 0] /\ good_filter (fee_filter toy 0) /\ good_filter (lpf toy) /\
  exists rwf blr, pmt_response toy 0 2 [0; 1; 0; 0; 0; 0; 0; 0] [0; 0; 0; 0] [1; 0; 0; 0] [0; 0; 2; 0] = Ok (rwf, blr) /\ Qred (sampled toy 2 [0; 1; 0; 0; 0; 0; 0; 0] 1) = 3 /\ map Qred blr = [0; 15; 45 # 2; 45 # 4].
Proof. split; [repeat split|]. split; [exists 1, [-(1#2)]; split; [reflexivity|lra]|]. split; [exists 1, [-(1#2)]; split; [reflexivity|lra]|]. eexists _, _. split; [vm_compute; reflexivity|]. split; vm_compute; reflexivity. Qed.
