(** C79: the pulse of a photoelectron, trains of pulses, and the ranges of the frequencies of the noise *)
From Coq Require Import QArith ZArith List Lia Lqa.
From Verif Require Import Base Arrays DbModel DbProps DbThr NoiseModel FeeModel FeeSpec FeeProofs FeeProps.
Import ListNotations.
Local Open Scope Q_scope.

Lemma qnat_S n : qnat (S n) == qnat n + 1.
Proof. unfold qnat. rewrite Nat2Z.inj_succ. unfold Z.succ. now rewrite inject_Z_plus. Qed.
Lemma qnat_0_lt n : (0 < n)%nat -> 0 < qnat n.
Proof. intros H. unfold qnat. change 0 with (inject_Z 0). rewrite <- Zlt_Qlt. lia. Qed.
Lemma length_line a b n : length (line a b n) = n.
Proof. destruct n as [|[|n]]; [reflexivity|reflexivity|]. unfold line. now rewrite map_length, seq_length. Qed.
Lemma nth_line a b n i : (2 <= n)%nat -> (i < n)%nat -> nth i (line a b n) 0 == a + (b - a) * qnat i / qnat (n - 1).
Proof.
  intros Hn Hi. destruct n as [|[|n]]; [lia|lia|]. unfold line. rewrite (nth_indep _ 0 (a + qnat 0 * ((b - a) / qnat (S n)))) by (rewrite map_length, seq_length; lia).
  rewrite (map_nth (fun i => a + qnat i * ((b - a) / qnat (S n)))), seq_nth by lia. cbn [plus]. replace (S (S n) - 1)%nat with (S n) by lia. assert (P := qnat_0_lt (S n) ltac:(lia)). field. lra.
Qed.
Lemma sum_upto k : sumF qnat (seq 0 (S k)) == qnat k * (qnat k + 1) * (1 # 2).
Proof.
  induction k as [|k IH]; [reflexivity|]. rewrite seq_S, sumF_app, IH. cbn [plus]. unfold sumF at 1. cbn [map sumQ fold_right]. rewrite (qnat_S k). unfold sumQ. cbn [fold_right]. ring.
Qed.
Lemma sum_line a b n : (2 <= n)%nat -> sumQ (line a b n) == (a + b) * qnat n * (1 # 2).
Proof.
  intros Hn. destruct n as [|[|n]]; [lia|lia|]. unfold line. assert (P := qnat_0_lt (S n) ltac:(lia)).
  change (sumF (fun i => a + qnat i * ((b - a) / qnat (S n))) (seq 0 (S (S n))) == (a + b) * qnat (S (S n)) * (1 # 2)).
  rewrite sumF_plus. assert (E1 : sumF (fun _ : nat => a) (seq 0 (S (S n))) == a * qnat (S (S n))).
  { generalize (S (S n)) as m. clear. intros m. induction m as [|m IH]; [unfold sumF; cbn; unfold qnat; cbn; ring|]. rewrite seq_S, sumF_app, IH, qnat_S. unfold sumF. cbn. ring. }
  assert (E2 : sumF (fun i => qnat i * ((b - a) / qnat (S n))) (seq 0 (S (S n))) == (b - a) / qnat (S n) * sumF qnat (seq 0 (S (S n)))) by (rewrite <- sumF_scale; apply sumF_ext; intros; ring).
  rewrite E1, E2, sum_upto, (qnat_S (S n)). field. lra.
Qed.

(** The pulse rises in a straight line, stays at its top and falls as it rose; its samples add up to the top times the
    length of a slope and the flat part. *)
Theorem C79_shape A slope flat : (2 <= slope)%nat -> let p := spe_shape A slope flat in
  length p = (slope + flat + slope)%nat
  /\ (forall i, (i < slope)%nat -> nth i p 0 == A * qnat i / qnat (slope - 1))
  /\ (forall i, (slope <= i < slope + flat)%nat -> nth i p 0 == A)
  /\ (forall i, (i < length p)%nat -> nth (length p - 1 - i) p 0 == nth i p 0)
  /\ sumQ p == A * qnat (slope + flat).
Proof.
  intros Hs. cbn zeta. assert (L : length (spe_shape A slope flat) = (slope + flat + slope)%nat) by (unfold spe_shape; rewrite !app_length, repeat_length, !length_line; lia).
  assert (P := qnat_0_lt (slope - 1) ltac:(lia)).
  assert (N1 : forall i, (i < slope)%nat -> nth i (spe_shape A slope flat) 0 == A * qnat i / qnat (slope - 1)).
  { intros i Hi. unfold spe_shape. rewrite app_nth1 by (rewrite length_line; lia). rewrite nth_line by lia. field. lra. }
  assert (N2 : forall i, (slope <= i < slope + flat)%nat -> nth i (spe_shape A slope flat) 0 == A).
  { intros i Hi. unfold spe_shape. rewrite app_nth2 by (rewrite length_line; lia). rewrite length_line, app_nth1 by (rewrite repeat_length; lia). rewrite (nth_indep _ 0 A) by (rewrite repeat_length; lia). rewrite nth_repeat. reflexivity. }
  assert (N3 : forall i, (i < slope)%nat -> nth (slope + flat + slope - 1 - i) (spe_shape A slope flat) 0 == A * qnat i / qnat (slope - 1)).
  { intros i Hi. unfold spe_shape. rewrite app_nth2 by (rewrite length_line; lia). rewrite length_line, app_nth2 by (rewrite repeat_length; lia). rewrite repeat_length. replace (slope + flat + slope - 1 - i - slope - flat)%nat with (slope - 1 - i)%nat by lia. rewrite nth_line by lia.
    assert (E : qnat (slope - 1 - i) == qnat (slope - 1) - qnat i) by (unfold qnat; rewrite Nat2Z.inj_sub by lia; unfold Z.sub; rewrite inject_Z_plus, inject_Z_opp; ring). rewrite E. field. lra. }
  split; [exact L|]. split; [exact N1|]. split; [exact N2|]. split.
  - rewrite L. intros i Hi. destruct (Nat.lt_ge_cases i slope) as [C|C]; [rewrite N3, N1 by assumption; reflexivity|]. destruct (Nat.lt_ge_cases i (slope + flat)) as [D|D]; [rewrite N2, N2 by lia; reflexivity|].
    assert (E := N3 (slope + flat + slope - 1 - i)%nat ltac:(lia)). replace (slope + flat + slope - 1 - (slope + flat + slope - 1 - i))%nat with i in E by lia. rewrite E. apply N1. lia.
  - unfold spe_shape. rewrite !sumQ_app. rewrite !sum_line by assumption. assert (R : sumQ (repeat A flat) == A * qnat flat). { clear. induction flat as [|n IH]; [cbn; unfold qnat; cbn; ring|]. cbn [repeat sumQ fold_right]. rewrite qnat_S. transitivity (A + sumQ (repeat A n)); [reflexivity|]. rewrite IH. ring. }
    rewrite R. assert (E : qnat (slope + flat) == qnat slope + qnat flat) by (unfold qnat; rewrite Nat2Z.inj_add, inject_Z_plus; reflexivity). rewrite E. ring.
Qed.
Print Assumptions C79_shape.
(** the default pulse: 5 samples up, 1 at the top, 5 down *)
Example C79_shape_ex : map Qred (spe_shape 4 5 1) = [0; 1; 2; 3; 4; 4; 4; 3; 2; 1; 0].
Proof. reflexivity. Qed.

(** A train of pulses is the sum of the pulses that start at the samples from the first to the last one, both included *)
Theorem C79_train spe nmin nmax NMAX t : (0 < length spe)%nat -> (nmin <= nmax < NMAX)%nat ->
  length (spe_pulse_train spe nmin nmax NMAX) = (NMAX + length spe - 1)%nat
  /\ nth t (spe_pulse_train spe nmin nmax NMAX) 0 == sumF (fun n => match spe_pulse spe n NMAX with Ok p => nth t p 0 | Err _ => 0 end) (seq nmin (S nmax - nmin)).
Proof.
  intros Hs Hn. unfold spe_pulse_train. set (D := map (fun i => if (nmin <=? i)%nat && (i <=? nmax)%nat then 1 else 0) (seq 0 NMAX)). assert (LD : length D = NMAX) by (unfold D; now rewrite map_length, seq_length).
  split; [rewrite length_convolve by lia; lia|].
  assert (ND : forall i, (i < NMAX)%nat -> nth i D 0 = if (nmin <=? i)%nat && (i <=? nmax)%nat then 1 else 0).
  { intros i Hi. unfold D. rewrite (nth_indep _ 0 ((fun i => if (nmin <=? i)%nat && (i <=? nmax)%nat then 1 else 0) 0%nat)) by (rewrite map_length, seq_length; lia). rewrite (map_nth (fun i => if (nmin <=? i)%nat && (i <=? nmax)%nat then 1 else 0)), seq_nth by lia. reflexivity. }
  transitivity (sumF (fun n => if (n <=? t)%nat then nth (t - n) spe 0 else 0) (seq nmin (S nmax - nmin))).
  2:{ apply sumF_ext. intros n H. apply in_seq in H. destruct (C79_one_pulse spe n NMAX Hs ltac:(lia)) as (p & -> & _ & Hp). symmetry. apply Hp. }
  destruct (Nat.lt_ge_cases t (NMAX + length spe - 1)) as [C|C].
  - rewrite nth_convolve by lia. unfold conv_at. rewrite LD. replace NMAX with (nmin + ((S nmax - nmin) + (NMAX - S nmax)))%nat at 1 by lia. rewrite !seq_app, !sumF_app. cbn [plus].
    rewrite (sumF_zero _ (seq 0 nmin)). 2:{ intros i Hi. apply in_seq in Hi. rewrite ND by lia. destruct (Nat.leb_spec nmin i); [lia|]. cbn [andb]. destruct (i <=? t)%nat; ring. }
    rewrite (sumF_zero _ (seq _ (NMAX - S nmax))). 2:{ intros i Hi. apply in_seq in Hi. rewrite ND by lia. destruct (Nat.leb_spec i nmax); [lia|]. rewrite andb_false_r. destruct (i <=? t)%nat; ring. }
    rewrite Qplus_0_l, Qplus_0_r. apply sumF_ext. intros i Hi. apply in_seq in Hi. rewrite ND by lia. destruct (Nat.leb_spec nmin i); [|lia]. destruct (Nat.leb_spec i nmax); [|lia]. cbn [andb]. destruct (i <=? t)%nat; ring.
  - rewrite nth_overflow by (rewrite length_convolve by lia; lia). symmetry. apply sumF_zero. intros n H. apply in_seq in H. destruct (n <=? t)%nat; [|reflexivity]. rewrite nth_overflow by lia. reflexivity.
Qed.
Print Assumptions C79_train.
Example C79_train_ex : map Qred (spe_pulse_train [1; 2] 1 2 4) = [0; 1; 3; 2; 0].
Proof. reflexivity. Qed.

(** Frequencies at equal steps: the ranges from which they are drawn are centred at them, as wide as a step, and follow one another *)
Theorem C79_frequency_ranges freqs f0 f1 step : nth_error freqs 0 = Some f0 -> nth_error freqs 1 = Some f1 -> f1 - f0 == step ->
  (forall i a b, nth_error freqs i = Some a -> nth_error freqs (S i) = Some b -> b - a == step) ->
  exists ranges, frequency_limits freqs = Ok ranges /\ Forall2 (fun f r => fst r + snd r == 2 * f /\ snd r - fst r == step) freqs ranges
    /\ forall i r r', nth_error ranges i = Some r -> nth_error ranges (S i) = Some r' -> snd r == fst r'.
Proof.
  intros H0 H1 Hs E. destruct freqs as [|g0 [|g1 l]]; [discriminate|discriminate|]. cbn in H0, H1. injection H0 as ->. injection H1 as ->. eexists. split; [reflexivity|]. set (F := fun f => (f - (f1 - f0) / 2, f + (f1 - f0) / 2)). fold (map F (f0 :: f1 :: l)). set (fs := f0 :: f1 :: l) in *. split.
  - clear - Hs. clearbody fs. subst F. induction fs as [|f m IH]; constructor; [|assumption]. cbn [fst snd]. assert (H : (f1 - f0) / 2 == (f1 - f0) * (1 # 2)) by field. split; lra.
  - intros i r r' Hr Hr'. rewrite nth_error_map in Hr, Hr'. destruct (nth_error fs i) as [a|] eqn:A; [|discriminate]. destruct (nth_error fs (S i)) as [b|] eqn:B; [|discriminate]. cbn in Hr, Hr'. injection Hr as <-. injection Hr' as <-. specialize (E i a b A B). unfold F. cbn [fst snd]. assert (H : (f1 - f0) / 2 == (f1 - f0) * (1 # 2)) by field. lra.
Qed.
Print Assumptions C79_frequency_ranges.
(** a single frequency has no step *)
Theorem C79_one_frequency f : frequency_limits [f] = Err IndexError.
Proof. reflexivity. Qed.
Example C79_frequency_ex : frequency_limits [10; 12; 14] = Ok [(10 - (12 - 10) / 2, 10 + (12 - 10) / 2); (12 - (12 - 10) / 2, 12 + (12 - 10) / 2); (14 - (12 - 10) / 2, 14 + (12 - 10) / 2)].
Proof. reflexivity. Qed.
Print Assumptions C79_one_frequency.
