(** C55: recovering the signal of the PMTs *)
From Verif Require Import Base Arrays PeaksModel CalibModel CalibSpec.
Local Open Scope nat_scope.

Lemma firstn_lfilter_from b0 b1 a1 n : forall l l' px py, firstn n l = firstn n l' -> firstn n (lfilter_from b0 b1 a1 px py l) = firstn n (lfilter_from b0 b1 a1 px py l').
Proof. induction n as [|n IH]; intros [|x l] [|x' l'] px py H; try reflexivity; try discriminate. cbn in *. injection H as -> H. now rewrite (IH _ _ _ _ H). Qed.
Lemma firstn_lfilter b0 b1 a1 n l l' : firstn n l = firstn n l' -> firstn n (lfilter b0 b1 a1 l) = firstn n (lfilter b0 b1 a1 l').
Proof. destruct n as [|n], l as [|x l], l' as [|x' l']; intros H; try reflexivity; try discriminate. cbn in *. injection H as -> H. now rewrite (firstn_lfilter_from b0 b1 a1 n l l' _ _ H). Qed.
Lemma firstn_recover coef t a n : forall l l' acum, firstn n l = firstn n l' -> firstn n (recover coef t a acum l) = firstn n (recover coef t a acum l').
Proof. induction n as [|n IH]; intros [|x l] [|x' l'] acum H; try reflexivity; try discriminate. cbn in *. injection H as -> H. now rewrite (IH _ _ _ H). Qed.
Lemma length_lfilter b0 b1 a1 l : length (lfilter b0 b1 a1 l) = length l.
Proof. assert (G : forall l px py, length (lfilter_from b0 b1 a1 px py l) = length l) by (clear; induction l as [|x l IH]; intros; cbn; [reflexivity|now rewrite IH]). destruct l as [|x l]; [reflexivity|]. cbn. now rewrite G. Qed.
Lemma length_recover coef t a l : forall acum, length (recover coef t a acum l) = length l.
Proof. induction l as [|x l IH]; intros; cbn; [reflexivity|now rewrite IH]. Qed.

Lemma lfilter_from_spec b0 b1 a1 : forall l px py k, k < length l ->
  nth k (lfilter_from b0 b1 a1 px py l) 0%Q = (b0 * nth k l 0 + b1 * (if k =? 0 then px else nth (k - 1) l 0) - a1 * (if k =? 0 then py else nth (k - 1) (lfilter_from b0 b1 a1 px py l) 0))%Q.
Proof.
  induction l as [|x l IH]; intros px py k H; [cbn in H; lia|]. destruct k as [|k]; [reflexivity|]. cbn [lfilter_from nth Nat.eqb]. cbn in H. rewrite IH by lia. cbn [Nat.sub]. rewrite Nat.sub_0_r.
  destruct k as [|k]; [reflexivity|]. cbn [Nat.eqb Nat.sub nth]. now rewrite Nat.sub_0_r.
Qed.
Theorem C55_filter b0 b1 a1 wf : filtered b0 b1 a1 wf (lfilter b0 b1 a1 wf).
Proof.
  split; [apply length_lfilter|]. intros k H. destruct wf as [|x l]; [cbn in H; lia|]. destruct k as [|k]; [cbn; ring|]. cbn [lfilter nth Nat.eqb]. cbn in H. rewrite lfilter_from_spec by lia. cbn [Nat.sub]. rewrite Nat.sub_0_r. destruct k as [|k]; [cbn; ring|]. cbn [Nat.eqb Nat.sub nth]. rewrite Nat.sub_0_r. ring.
Qed.
Print Assumptions C55_filter.

(** the accumulator along the samples *)
Fixpoint acums (coef t a acum : Q) (l : list Q) : list Q :=
  match l with [] => [acum] | x :: l => acum :: acums coef t a (next_acum coef t a x acum) l end.
Lemma length_acums coef t a l : forall acum, length (acums coef t a acum l) = S (length l).
Proof. induction l as [|x l IH]; intros; cbn; [reflexivity|now rewrite IH]. Qed.
Lemma nth_acums coef t a l : forall acum k, k < length l -> nth (S k) (acums coef t a acum l) 0%Q = next_acum coef t a (nth k l 0%Q) (nth k (acums coef t a acum l) 0%Q).
Proof.
  induction l as [|x l IH]; intros acum k H; [cbn in H; lia|]. destruct k as [|k]; [destruct l; reflexivity|]. cbn in H. cbn [acums nth]. change (nth k (acums coef t a (next_acum coef t a x acum) l) 0%Q) with (nth k (acums coef t a (next_acum coef t a x acum) l) 0%Q). rewrite <- IH by lia. reflexivity.
Qed.
Lemma nth_recover coef t a l : forall acum k, k < length l -> nth k (recover coef t a acum l) 0%Q = (nth k l 0 + nth k l 0 * (coef / 2) + coef * nth k (acums coef t a acum l) 0)%Q.
Proof. induction l as [|x l IH]; intros acum k H; [cbn in H; lia|]. destruct k as [|k]; [reflexivity|]. cbn in H. cbn [recover acums nth]. apply IH. lia. Qed.
Lemma acums_0 coef t a l acum : nth 0 (acums coef t a acum l) 0%Q = acum.
Proof. now destruct l. Qed.

Lemma trigger_line_of sqrt thr wf : (forall x y, x == y -> sqrt x == sqrt y)%Q -> (trigger_line sqrt thr wf == trigger_of sqrt thr wf)%Q.
Proof. intros Hs. unfold trigger_line, trigger_of. apply Qmult_comp; [reflexivity|]. apply Hs. reflexivity. Qed.
Lemma quiet_iff t a x acum : (Qltb x t && Qltb acum a)%bool = true <-> quiet t a x acum.
Proof. unfold quiet. rewrite Bool.andb_true_iff. destruct (Qltb_spec x t), (Qltb_spec acum a); intuition (try easy; lra). Qed.

(** each sample of the recovered signal *)
Theorem C55_recovered b0 b1 a1 sqrt coef thr wf out : (forall x y, x == y -> sqrt x == sqrt y)%Q -> deconvolve_signal b0 b1 a1 sqrt coef thr wf = Ok out ->
  exists y acum, filtered b0 b1 a1 wf y /\ accumulates coef (trigger_of sqrt thr wf) (thr / coef) y acum /\
    length out = length wf /\ nth 0 out 0%Q = nth 0 y 0%Q /\ forall k, S k < length wf -> (nth (S k) out 0 == nth (S k) y 0 * (1 + coef / 2) + coef * nth k acum 0)%Q.
Proof.
  intros Hs H. unfold deconvolve_signal in H. destruct (Qeqb coef 0); [easy|]. destruct (length wf <? n_noise); [easy|]. pose proof (C55_filter b0 b1 a1 wf) as F. pose proof (length_lfilter b0 b1 a1 wf) as Len. destruct (lfilter b0 b1 a1 wf) as [|x l] eqn:E; [easy|]. injection H as <-.
  set (t := trigger_line sqrt thr wf) in *. exists (x :: l), (acums coef t (thr / coef)%Q 0%Q l). split; [exact F|]. cbn [length] in Len. split; [|split; [|split]].
  - split; [|split].
    + now rewrite length_acums.
    + now rewrite acums_0.
    + intros k Hk. cbn [length] in Hk. cbn [nth]. rewrite nth_acums by lia. set (a := nth k (acums coef t (thr / coef) 0 l) 0%Q). set (z := nth k l 0%Q). unfold next_acum.
      assert (Q1 : quiet (trigger_of sqrt thr wf) (thr / coef) z a <-> quiet t (thr / coef) z a) by (unfold quiet, t; now rewrite (trigger_line_of sqrt thr wf Hs)). rewrite Q1, <- quiet_iff.
      destruct (Qltb z t && Qltb a (thr / coef))%bool; (split; [|split]); intros K; try congruence; try (intros K2).
      * destruct (Qltb_spec 1 a); [reflexivity|lra].
      * destruct (Qltb_spec 1 a); [lra|reflexivity].
  - cbn [length]. now rewrite length_recover.
  - reflexivity.
  - intros k Hk. cbn [nth]. rewrite nth_recover by lia. field.
Qed.
Print Assumptions C55_recovered.
(** it exists for waveforms of 400 samples or more, and only for them *)
Theorem C55_domain b0 b1 a1 sqrt coef thr wf : ~ (coef == 0)%Q -> (400 <= length wf -> exists out, deconvolve_signal b0 b1 a1 sqrt coef thr wf = Ok out) /\ (length wf < 400 -> deconvolve_signal b0 b1 a1 sqrt coef thr wf = Err IndexError).
Proof.
  intros Hc. unfold deconvolve_signal. destruct (Qeqb_spec coef 0) as [E|E]; [contradiction|]. unfold n_noise. split; intros H.
  - destruct (Nat.ltb_spec (length wf) 400); [lia|]. pose proof (length_lfilter b0 b1 a1 wf) as Len. destruct (lfilter b0 b1 a1 wf); [cbn [length] in Len; lia|]. eexists. reflexivity.
  - destruct (Nat.ltb_spec (length wf) 400); [reflexivity|lia].
Qed.
Print Assumptions C55_domain.

(** a sample depends on the first 400 samples, and on those up to it *)
Theorem C55_causal b0 b1 a1 sqrt coef thr wf wf' out out' n : 400 <= n -> firstn n wf = firstn n wf' ->
  deconvolve_signal b0 b1 a1 sqrt coef thr wf = Ok out -> deconvolve_signal b0 b1 a1 sqrt coef thr wf' = Ok out' -> firstn n out = firstn n out'.
Proof.
  intros Hn E H H'. unfold deconvolve_signal in H, H'. destruct (Qeqb coef 0); [easy|]. destruct (length wf <? n_noise), (length wf' <? n_noise); try easy.
  assert (T : trigger_line sqrt thr wf = trigger_line sqrt thr wf').
  { unfold trigger_line. replace (firstn n_noise wf') with (firstn n_noise wf); [reflexivity|]. unfold n_noise. rewrite <- (Nat.min_l 400 n) by assumption. rewrite <- !firstn_firstn. now rewrite E. }
  pose proof (firstn_lfilter b0 b1 a1 n wf wf' E) as F. destruct (lfilter b0 b1 a1 wf) as [|x l]; [easy|]. destruct (lfilter b0 b1 a1 wf') as [|x' l']; [easy|]. injection H as <-. injection H' as <-. destruct n as [|n]; [reflexivity|]. cbn [firstn] in *. injection F as -> F. rewrite T. f_equal. now apply firstn_recover.
Qed.
Print Assumptions C55_causal.

(** without signal the accumulator empties, in a number of samples that depends only on the settings *)
Theorem C55_reset coef t th y acum s K : (0 < coef <= 1)%Q -> (0 < th)%Q -> (th <= 1 + qn K * coef)%Q -> accumulates coef t th y acum ->
  (nth s acum 0 < th)%Q -> (forall k, s < k < length y -> (nth k y 0 < t)%Q) ->
  forall k, s + K + 1 <= k < length y -> (nth k acum 0 == 0)%Q.
Proof.
  intros Hc Ht HK (Len & A0 & A) Hs Hy.
  assert (Step : forall d, s + d < length y -> (nth (s + d) acum 0 < th)%Q /\ ((nth (s + d) acum 0 == 0)%Q \/ d <= K /\ (nth (s + d) acum 0 <= 1 + qn (K - d) * coef)%Q)).
  { induction d as [|d IH]; intros Hd.
    - rewrite Nat.add_0_r, Nat.sub_0_r. split; [assumption|]. right. split; [lia|lra].
    - destruct (IH ltac:(lia)) as [I1 I2]. replace (s + S d) with (S (s + d)) by lia. destruct (A (s + d) ltac:(lia)) as (B1 & B2 & _). set (a := nth (s + d) acum 0%Q) in *.
      assert (Hq : quiet t th (nth (S (s + d)) y 0%Q) a) by (split; [apply Hy; lia|assumption]). specialize (B1 Hq). specialize (B2 Hq). destruct (Qlt_le_dec 1 a) as [H1|H1].
      + specialize (B1 H1). destruct I2 as [I2|[I2 I3]]; [lra|]. destruct (Nat.eq_dec d K) as [->|Hne]; [exfalso; rewrite Nat.sub_diag in I3; assert (E0 : (qn 0 == 0)%Q) by reflexivity; rewrite E0 in I3; lra|].
        replace (K - d) with (S (K - S d)) in I3 by lia. assert (Ek : (qn (S (K - S d)) == qn (K - S d) + 1)%Q) by (unfold qn; rewrite Nat2Z.inj_succ; unfold Z.succ; rewrite inject_Z_plus; reflexivity). rewrite Ek in I3. assert (Pk : (0 <= qn (K - S d))%Q) by (unfold qn; change 0%Q with (inject_Z 0); rewrite <- Zle_Qle; lia).
        rewrite B1. split; [nra|]. right. split; [lia|]. nra.
      + specialize (B2 H1). split; [lra|now left]. }
  intros k Hk. destruct (Step (k - s) ltac:(lia)) as [_ [H|[H _]]]; [|lia]. now replace (s + (k - s)) with k in H by lia.
Qed.
Print Assumptions C55_reset.

(** when no sample of the filtered signal reaches the trigger line, the recovered signal is the filtered signal with a fixed gain *)
Theorem C55_no_signal b0 b1 a1 sqrt coef thr wf out y : (forall x y, x == y -> sqrt x == sqrt y)%Q -> deconvolve_signal b0 b1 a1 sqrt coef thr wf = Ok out ->
  (0 < coef <= 1)%Q -> (0 < thr)%Q -> filtered b0 b1 a1 wf y -> (forall k, 0 < k < length wf -> (nth k y 0 < trigger_of sqrt thr wf)%Q) ->
  forall k, 0 < k < length wf -> (nth k out 0 == nth k y 0 * (1 + coef / 2))%Q.
Proof.
  intros Hs H Hc Ht Hf Hy k Hk. destruct (C55_recovered b0 b1 a1 sqrt coef thr wf out Hs H) as (y' & acum & F & (Al & A0 & A) & _ & _ & Ho).
  assert (Ey : forall j, j < length wf -> (nth j y' 0 == nth j y 0)%Q).
  { destruct F as [F1 F2], Hf as [G1 G2]. induction j as [|j IH]; intros Hj; rewrite F2, G2 by assumption; [reflexivity|]. cbn [Nat.eqb Nat.sub]. rewrite Nat.sub_0_r, IH by lia. reflexivity. }
  assert (Hth : (0 < thr / coef)%Q) by (apply Qlt_shift_div_l; lra).
  assert (Z : forall j, j < length wf -> (nth j acum 0 == 0)%Q).
  { destruct F as [F1 _]. induction j as [|j IH]; intros Hj; [assumption|]. destruct (A j ltac:(lia)) as (_ & B & _). specialize (IH ltac:(lia)). apply B; [|lra]. split; [|lra]. rewrite Ey by assumption. apply Hy. lia. }
  destruct k as [|k]; [lia|]. rewrite Ho by lia. rewrite Ey, Z by lia. ring.
Qed.
Print Assumptions C55_no_signal.

(** the accumulator does not discharge when it is above its threshold: a constant offset stays for ever *)
Theorem C55_stuck_refuted coef t th a n : (th <= a)%Q -> Forall (fun v => (v == coef * a)%Q) (recover coef t th a (repeat 0%Q n)).
Proof.
  revert a. induction n as [|n IH]; intros a H; [constructor|]. cbn [repeat recover]. constructor; [field|]. unfold next_acum. destruct (Qltb_spec a th); [lra|]. rewrite Bool.andb_false_r. eapply Forall_impl; [|apply IH; lra]. intros v Hv. cbn beta in *. rewrite Hv. ring.
Qed.
Print Assumptions C55_stuck_refuted.

(** a sample among the first 400 changes the trigger line, and with it samples recovered before it *)
Definition noise_q (wf : list Q) : Q := (sumF (fun x => x * x) (firstn 400 wf) / 400)%Q.
Definition wf_z (z : Q) : list Q := [0; 20; 0]%Q ++ repeat 0%Q 396 ++ [z].
Definition sqrt_ab (q : Q) : Q := if Qeqb q 1 then 1%Q else (101 # 20)%Q.
Lemma length_wf_z z : length (wf_z z) = 400.
Proof. unfold wf_z. now rewrite !app_length, repeat_length. Qed.
Lemma noise_wf_z z : (noise_q (wf_z z) == (400 + z * z) / 400)%Q.
Proof.
  unfold noise_q. rewrite firstn_all2 by (now rewrite length_wf_z). unfold wf_z. rewrite !sumF_app. rewrite (sumF_zero _ (repeat 0%Q 396)) by (intros x Hx; apply repeat_spec in Hx; subst; reflexivity). unfold sumF. cbn [map sumQ fold_right]. field.
Qed.
Lemma sqrt_ab_eq x y : (x == y)%Q -> (sqrt_ab x == sqrt_ab y)%Q.
Proof. intros H. unfold sqrt_ab. destruct (Qeqb_spec x 1), (Qeqb_spec y 1); try reflexivity; exfalso; [now rewrite H in *|now rewrite <- H in *]. Qed.
Lemma third_sample z out : deconvolve_signal 1 (-1) (-1) sqrt_ab (1 # 10) 5 (wf_z z) = Ok out -> exists a, (nth 2 out 0 == (1 # 10) * a)%Q /\
  let t := (5 * sqrt_ab ((400 + z * z) / 400))%Q in (20 < t -> a == 0)%Q /\ (t <= 20 -> a == 20)%Q.
Proof.
  intros H. destruct (C55_recovered 1 (-1) (-1) sqrt_ab (1 # 10) 5 _ _ sqrt_ab_eq H) as (y & acum & [F1 F2] & (Al & A0 & A) & _ & _ & Ho). rewrite F1 in *. rewrite length_wf_z in *.
  assert (Y0 : (nth 0 y 0 == 0)%Q) by (rewrite F2 by lia; cbn; ring). assert (Y1 : (nth 1 y 0 == 20)%Q) by (rewrite F2 by lia; cbn [Nat.eqb Nat.sub]; rewrite Y0; cbn [wf_z app nth]; ring). assert (Y2 : (nth 2 y 0 == 0)%Q) by (rewrite F2 by lia; cbn [Nat.eqb Nat.sub]; rewrite Y1; cbn [wf_z app nth]; ring).
  exists (nth 1 acum 0%Q). split; [rewrite Ho by lia; rewrite Y2; ring|]. intros t. assert (Et : (trigger_of sqrt_ab 5 (wf_z z) == t)%Q) by (unfold trigger_of, t; apply Qmult_comp; [reflexivity|]; apply sqrt_ab_eq, noise_wf_z).
  destruct (A 0 ltac:(lia)) as (_ & B2 & B3). unfold quiet in B2, B3. rewrite A0, Y1, Et in B2, B3. split; intros Ht.
  - apply B2; [split; [assumption|reflexivity]|lra].
  - rewrite B3; [ring|]. intros [K _]. lra.
Qed.
Theorem C55_causal_refuted : exists (wf wf' : list Q) (sqrt : Q -> Q) (coef : Q) (out out' : list Q), (sqrt (noise_q wf) * sqrt (noise_q wf) == noise_q wf)%Q /\ (sqrt (noise_q wf') * sqrt (noise_q wf') == noise_q wf')%Q /\
  firstn 399 wf = firstn 399 wf' /\ deconvolve_signal 1 (-1) (-1) sqrt coef 5 wf = Ok out /\ deconvolve_signal 1 (-1) (-1) sqrt coef 5 wf' = Ok out' /\ ~ (nth 2 out 0 == nth 2 out' 0)%Q.
Proof.
  pose proof (C55_domain 1 (-1) (-1) sqrt_ab (1 # 10) 5 (wf_z 0) ltac:(easy)) as [Da _]. pose proof (C55_domain 1 (-1) (-1) sqrt_ab (1 # 10) 5 (wf_z 99) ltac:(easy)) as [Db _]. rewrite length_wf_z in Da, Db.
  destruct (Da ltac:(lia)) as (oa & Ea). destruct (Db ltac:(lia)) as (ob & Eb). exists (wf_z 0), (wf_z 99), sqrt_ab, (1 # 10), oa, ob.
  assert (Na : (sqrt_ab ((400 + 0 * 0) / 400) == 1)%Q) by reflexivity. assert (Nb : (sqrt_ab ((400 + 99 * 99) / 400) == (101 # 20))%Q) by reflexivity.
  split; [rewrite (sqrt_ab_eq _ _ (noise_wf_z 0)), Na, noise_wf_z; reflexivity|]. split; [rewrite (sqrt_ab_eq _ _ (noise_wf_z 99)), Nb, noise_wf_z; reflexivity|].
  split; [|split; [assumption|split; [assumption|]]].
  - unfold wf_z. rewrite !app_assoc. rewrite (firstn_app 399 _ [0%Q]), (firstn_app 399 _ [99%Q]). rewrite app_length, repeat_length. reflexivity.
  - destruct (third_sample 0 oa Ea) as (a & Ha & _ & Ka). destruct (third_sample 99 ob Eb) as (b & Hb & Kb & _). clear Ea Eb Da Db. rewrite Ha, Hb, Ka, Kb; [discriminate|rewrite Nb; reflexivity|rewrite Na; discriminate].
Qed.
Print Assumptions C55_causal_refuted.

(** a waveform with a pulse *)
Example C55_example : exists out, deconvolve_signal 1 (-1) (-1) sqrt_ab (1 # 10) 5 (wf_z 0) = Ok out /\ (nth 2 out 0 == 2)%Q /\ accumulates (1 # 10) 5 50 [0; 20; 0; 0]%Q [0; 20; 18; (162 # 10)]%Q /\
  (50 <= 1 + qn 490 * (1 # 10))%Q.
Proof.
  pose proof (C55_domain 1 (-1) (-1) sqrt_ab (1 # 10) 5 (wf_z 0) ltac:(easy)) as [Da _]. rewrite length_wf_z in Da. destruct (Da ltac:(lia)) as (oa & Ea). exists oa. split; [assumption|].
  split; [destruct (third_sample 0 oa Ea) as (a & Ha & _ & Ka); clear Ea Da; rewrite Ha, Ka; [reflexivity|discriminate]|]. clear Ea Da. split; [|discriminate].
  split; [reflexivity|]. split; [reflexivity|]. intros k Hk. cbn [length] in Hk. destruct k as [|[|[|k]]]; [| | |lia]; unfold quiet; cbn; repeat split; intros; try reflexivity; try lra.
Qed.
