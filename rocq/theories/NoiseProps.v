(** C78: the noise of several samples, the signal to noise and the simulated response of SiPMs *)
From Coq Require Import QArith ZArith List Lia Lqa Qround Qabs.
From Verif Require Import Base Arrays PeaksModel BuffersProofs DbModel DbSpec DbThr NoiseModel NoiseSpec NoiseProofs.
Import ListNotations.
Local Open Scope Q_scope.

Lemma floor_bounds x : inject_Z (Qfloor x) <= x /\ x < inject_Z (Qfloor x) + 1.
Proof. split; [apply Qfloor_le|]. pose proof (Qlt_floor x) as H. rewrite inject_Z_plus in H. exact H. Qed.
Lemma floor_nonneg x : 0 <= x -> (0 <= Qfloor x)%Z.
Proof. intros H. change 0%Z with (Qfloor 0). now apply Qfloor_resp_le. Qed.
Lemma to_nat_floor x : 0 <= x -> qnat (Z.to_nat (Qfloor x)) <= x /\ x < qnat (Z.to_nat (Qfloor x)) + 1.
Proof. intros H. unfold qnat. rewrite Z2Nat.id by now apply floor_nonneg. apply floor_bounds. Qed.
Lemma div_nonneg a b : 0 <= a -> 0 < b -> 0 <= a / b.
Proof. intros Ha Hb. apply Qle_shift_div_l; [assumption|lra]. Qed.

Lemma floor_mul a w : 0 <= a -> 0 < w -> qnat (Z.to_nat (Qfloor (a / w))) * w <= a /\ a < (qnat (Z.to_nat (Qfloor (a / w))) + 1) * w.
Proof.
  intros Ha Hw. destruct (to_nat_floor (a / w) (div_nonneg a w Ha Hw)) as [B1 B2]. set (u := qnat _) in *. assert (E : a / w * w == a) by (field; lra). split.
  - apply Qle_trans with (a / w * w); [apply Qmult_le_compat_r; lra|rewrite E; apply Qle_refl].
  - apply Qle_lt_trans with (a / w * w); [rewrite E; apply Qle_refl|apply Qmult_lt_compat_r; lra].
Qed.

(** ---- padding ---- *)
Theorem C78_pad bins f w spectra : evenly_spaced bins f w -> Forall (fun p => length p = length bins) spectra ->
  exists xs rows before, pad_pdfs bins spectra = Ok (xs, rows) /\ length rows = length spectra /\
    (before + length bins <= length xs)%nat /\
    (forall k x, nth_error xs k = Some x -> x == f + (qnat k - qnat before) * w) /\
    (forall r p row, nth_error spectra r = Some p -> nth_error rows r = Some row ->
       length row = length xs /\ forall k, (k < length xs)%nat -> nth k row 0 = if (before <=? k)%nat && (k <? before + length bins)%nat then nth (k - before) p 0 else 0) /\
    (-(100) <= f -> forall x, nth_error xs 0 = Some x -> -(100) <= x /\ x < -(100) + w) /\
    (f + qnat (length bins - 1) * w <= 100 -> forall x, nth_error xs (length xs - 1) = Some x -> 100 - w < x /\ x <= 100).
Proof.
  intros HE HF. destruct (width_is _ _ _ HE) as (w' & Hw & Ew). unfold pad_pdfs. rewrite Hw. cbn [rbind].
  destruct (padded_nth _ _ _ _ HE Ew) as [Hlen Hnth]. pose proof (hd_first _ _ _ HE) as Hh. pose proof (last_bin _ _ _ HE) as Hl. destruct HE as (H1 & H2 & _).
  set (p0 := pad_left bins w') in *. set (p1 := pad_right bins w') in *. set (xs := padded_bins bins w') in *.
  assert (Hx : forall k x, nth_error xs k = Some x -> x == f + (qnat k - qnat p0) * w).
  { intros k x Hk. assert (Hlt : (k < length xs)%nat) by (apply nth_error_Some; congruence). rewrite (nth_error_nth_d xs k 0 Hlt) in Hk. injection Hk as <-. now apply Hnth. }
  eexists xs, _, p0. split; [reflexivity|]. split; [now rewrite map_length|]. split; [lia|]. split; [exact Hx|]. split.
  { intros r p row Hp Hr. rewrite (map_nth_error _ _ _ Hp) in Hr. injection Hr as <-. rewrite Forall_forall in HF. pose proof (HF p (nth_error_In _ _ Hp)) as Lp. split; [rewrite !app_length, !repeat_length; lia|]. intros k Hk. destruct (Nat.leb_spec p0 k) as [C1|C1]; cbn [andb].
    - rewrite app_nth2; rewrite repeat_length; [|assumption]. destruct (Nat.ltb_spec k (p0 + length bins)) as [C2|C2]; [rewrite app_nth1 by lia; reflexivity|]. rewrite app_nth2 by lia. apply nth_repeat.
    - rewrite app_nth1 by now rewrite repeat_length. apply nth_repeat. }
  split.
  - intros Hf x Hx0. rewrite (Hx 0%nat x Hx0). change (qnat 0) with 0. assert (Ea : Qabs (- (100) - hd 0 bins) / w' == (f + 100) / w) by (rewrite Ew, Hh, Qabs_neg by lra; field; lra).
    assert (Ep : qnat p0 = qnat (Z.to_nat (Qfloor ((f + 100) / w)))) by (unfold p0, pad_left; now rewrite (Qfloor_comp _ _ Ea)). destruct (floor_mul (f + 100) w ltac:(lra) H2) as [B1 B2]. rewrite <- Ep in B1, B2. split; lra.
  - intros Hf x Hxn. rewrite (Hx _ x Hxn). assert (Ea : Qabs (100 - last bins 0) / w' == (100 - (f + qnat (length bins - 1) * w)) / w) by (rewrite Ew, Hl, Qabs_pos by lra; field; lra).
    set (lst := f + qnat (length bins - 1) * w) in *. assert (Ep : qnat p1 = qnat (Z.to_nat (Qfloor ((100 - lst) / w)))) by (unfold p1, pad_right; now rewrite (Qfloor_comp _ _ Ea)). destruct (floor_mul (100 - lst) w ltac:(lra) H2) as [B1 B2]. rewrite <- Ep in B1, B2.
    assert (Ek : qnat (length xs - 1) == qnat p0 + qnat (length bins - 1) + qnat p1) by (rewrite <- !qnat_plus; replace (length xs - 1)%nat with (p0 + (length bins - 1) + p1)%nat by lia; reflexivity). rewrite Ek. unfold lst in *. split; lra.
Qed.
Print Assumptions C78_pad.

(** ---- several samples ---- *)
Lemma multi_rows padded n : (0 < n)%nat -> multi_sample padded n = Ok (map (fun q => row q n) padded).
Proof.
  intros H. induction n as [|n IH]; [lia|]. destruct n as [|n]; [cbn; now rewrite map_id|]. change (multi_sample padded (S (S n))) with (rbind (multi_sample padded (S n)) (fun rest => Ok (map2 convolve_same padded rest))). rewrite IH by lia. cbn [rbind]. f_equal. clear. induction padded as [|q l IH]; [reflexivity|]. cbn [map map2]. rewrite IH. reflexivity.
Qed.
Lemma floor_sub x z : Qfloor (x - inject_Z z) = (Qfloor x - z)%Z.
Proof. apply Qfloor_spec. destruct (floor_bounds x) as [B1 B2]. unfold Z.sub. rewrite !inject_Z_plus, !inject_Z_opp. change (inject_Z 1) with 1. split; lra. Qed.
Lemma qnat_inj_le a b : qnat a <= qnat b -> (a <= b)%nat.
Proof. unfold qnat. rewrite <- Zle_Qle. lia. Qed.

(** the bins and rows the sampler works with, when zero is at one of the bins *)
Record on_grid (w : Q) (c : nat) (xs : list Q) : Prop := { grid_len : length xs = (2 * c + 1)%nat; grid_at : forall k x, nth_error xs k = Some x -> x == grid_x w c k; grid_top : Qfloor (100 / w) = Z.of_nat c }.
Lemma pads bins m w w' : evenly_spaced bins (-(qnat m * w)) w -> w' == w -> -(100) <= -(qnat m * w) -> (qnat (length bins - 1) - qnat m) * w <= 100 ->
  exists c, c = (pad_left bins w' + m)%nat /\ on_grid w c (padded_bins bins w') /\ (pad_left bins w' + length bins + pad_right bins w' = 2 * c + 1)%nat.
Proof.
  intros HE Ew H1 H2. destruct (padded_nth _ _ _ _ HE Ew) as [Hlen Hnth]. pose proof (hd_first _ _ _ HE) as Hh. pose proof (last_bin _ _ _ HE) as Hl. destruct HE as (L & Hw & _).
  exists (pad_left bins w' + m)%nat. split; [reflexivity|].
  assert (T : (0 <= Qfloor (100 / w))%Z) by (apply floor_nonneg, div_nonneg; lra).
  assert (Hm : (Z.of_nat m <= Qfloor (100 / w))%Z). { rewrite <- (Qfloor_Z (Z.of_nat m)). apply Qfloor_resp_le. apply Qle_shift_div_l; [assumption|]. unfold qnat in H1. lra. }
  assert (Hn : (Z.of_nat (length bins - 1) - Z.of_nat m <= Qfloor (100 / w))%Z). { rewrite <- (Qfloor_Z (Z.of_nat (length bins - 1) - Z.of_nat m)). apply Qfloor_resp_le. apply Qle_shift_div_l; [assumption|]. rewrite inject_sub. exact H2. }
  assert (P0 : pad_left bins w' = Z.to_nat (Qfloor (100 / w) - Z.of_nat m)). { unfold pad_left. f_equal. rewrite <- floor_sub. apply Qfloor_comp. rewrite Ew, Hh, Qabs_neg by lra. unfold qnat. field. lra. }
  assert (P1 : pad_right bins w' = Z.to_nat (Qfloor (100 / w) - (Z.of_nat (length bins - 1) - Z.of_nat m))). { unfold pad_right. f_equal. rewrite <- floor_sub. apply Qfloor_comp. rewrite Ew, Hl, Qabs_pos by lra. rewrite inject_sub. unfold qnat. field. lra. }
  assert (N : (pad_left bins w' + length bins + pad_right bins w' = 2 * (pad_left bins w' + m) + 1)%nat) by lia. split; [|exact N].
  constructor; [lia| |lia]. intros k x Hk. assert (Hlt : (k < length (padded_bins bins w'))%nat) by (apply nth_error_Some; congruence). rewrite (nth_error_nth_d _ k 0 Hlt) in Hk. injection Hk as <-. rewrite (Hnth k Hlt). unfold grid_x. rewrite inject_sub, Nat2Z.inj_add, inject_Z_plus. unfold qnat. ring.
Qed.
Lemma combine_app {A B} (a a' : list A) (b b' : list B) : length a = length b -> combine (a ++ a') (b ++ b') = combine a b ++ combine a' b'.
Proof. revert b. induction a as [|x a IH]; intros [|y b] H; try discriminate; [reflexivity|]. cbn. injection H as H. now rewrite IH. Qed.
Lemma in_combine_zeros (l : list Q) n e : In e (combine l (repeat 0 n)) -> snd e == 0.
Proof. destruct e as [x y]. intros H. apply in_combine_r, repeat_spec in H. cbn. now rewrite H. Qed.
(** the padded row has the same probabilities of sums *)
Lemma padded_same bins p w c m n v : let xs := padded_bins bins w in let q := repeat 0 (pad_left bins w) ++ p ++ repeat 0 (pad_right bins w) in
  length p = length bins -> forall w0, on_grid w0 c xs -> c = (pad_left bins w + m)%nat -> length q = (2 * c + 1)%nat ->
  prob_of_sum (grid w0 c q) n v == prob_of_sum (combine bins p) n v.
Proof.
  intros xs q Lp w0 G Hc Lq. rewrite <- (pos_zeros (combine bins p) (combine (ramp (round5 (hd 0 bins - qnat (pad_left bins w) * w)) (hd 0 bins) (pad_left bins w)) (repeat 0 (pad_left bins w))) (combine (rev (ramp (round5 (last bins 0 + qnat (pad_right bins w) * w)) (last bins 0) (pad_right bins w))) (repeat 0 (pad_right bins w)))).
  2: { intros e [He|He]; eapply in_combine_zeros, He. }
  rewrite <- (combine_app bins _ p) by now symmetry. rewrite <- combine_app by now rewrite length_ramp, repeat_length. change (_ ++ bins ++ _) with xs. change (_ ++ p ++ _) with q.
  apply pos_ext. unfold grid. destruct G as [G1 G2 _]. rewrite <- G1.
  assert (E : forall l l' : list Q, length l = length l' -> combine l l' = map (fun i => (nth i l 0, nth i l' 0)) (seq 0 (length l))).
  { clear. induction l as [|a l IH]; intros [|b l'] H; try discriminate; [reflexivity|]. cbn [combine length seq map nth]. injection H as H. rewrite (IH l' H), <- seq_shift, map_map. reflexivity. }
  rewrite (E xs q) by lia. clear E. assert (A : forall i, In i (seq 0 (length xs)) -> grid_x w0 c i == nth i xs 0) by (intros i Hi; apply in_seq in Hi; symmetry; apply G2, nth_error_nth_d; lia). revert A. generalize (seq 0 (length xs)). clear. induction l as [|i l IH]; intros A; cbn [map]; constructor; [cbn; split; [apply A; now left|reflexivity]|apply IH; intros; apply A; now right].
Qed.
Lemma sum_list (l : list Q) : sumF (fun i => nth i l 0) (seq 0 (length l)) == sumQ l.
Proof. rewrite sumQ_sumF. induction l as [|a l IH]; [reflexivity|]. cbn [length seq]. rewrite !sumF_cons, <- seq_shift, sumF_map'. cbn [nth]. now rewrite IH. Qed.
Lemma sumQ_zeros n : sumQ (repeat 0 n) == 0.
Proof. induction n as [|n IH]; cbn; [reflexivity|lra]. Qed.
Lemma mean_grid w c (xs q : list Q) : on_grid w c xs -> length q = (2 * c + 1)%nat -> w * sumF (fun i => inject_Z (Z.of_nat i - Z.of_nat c) * nth i q 0) (seq 0 (2 * c + 1)) == mean_of (grid w c q).
Proof. intros G Lq. unfold mean_of, grid. rewrite sumF_map', <- sumF_scale. apply sumF_ext. intros i _. cbn. unfold grid_x. ring. Qed.

(** zero is at the bin [m] (which may be before or after the bins given) and the bins lie between -100 and 100 *)
Definition around_zero (bins : list Q) (m : nat) (w : Q) : Prop :=
  evenly_spaced bins (-(qnat m * w)) w /\ -(100) <= -(qnat m * w) /\ (qnat (length bins - 1) - qnat m) * w <= 100.
(** [n] samples cannot add up to more than 100 in size *)
Definition small_noise (bins p : list Q) (n : nat) : Prop := forall x q, In (x, q) (combine bins p) -> ~ q == 0 -> qnat n * Qabs x <= 100.

Lemma abs_inject z : Qabs (inject_Z z) == inject_Z (Z.abs z).
Proof. reflexivity. Qed.
(** what the sampler keeps for one sensor *)
Lemma one_row bins m w p n : around_zero bins m w -> length p = length bins -> (0 < n)%nat ->
  exists w' c, pad_width bins = Ok w' /\ on_grid w c (padded_bins bins w') /\
    let q := repeat 0 (pad_left bins w') ++ p ++ repeat 0 (pad_right bins w') in length q = (2 * c + 1)%nat /\
    (forall v, prob_of_sum (grid w c q) n v == prob_of_sum (combine bins p) n v) /\ sumQ q == sumQ p /\ mean_of (grid w c q) == mean_of (combine bins p) /\
    (forall i, (nth i q 0 == 0) \/ exists x, In (x, nth i q 0) (combine bins p) /\ x == grid_x w c i) /\
    (small_noise bins p n -> exists s, (n * s <= c)%nat /\ forall i, ~ nth i q 0 == 0 -> (Z.abs (Z.of_nat i - Z.of_nat c) <= Z.of_nat s)%Z).
Proof.
  intros (HE & A1 & A2) Lp Hn. destruct (width_is _ _ _ HE) as (w' & Hw & Ew). destruct (pads _ _ _ _ HE Ew A1 A2) as (c & Hc & G & N). exists w', c. split; [exact Hw|]. split; [exact G|]. cbn zeta. set (q := repeat 0 (pad_left bins w') ++ p ++ repeat 0 (pad_right bins w')).
  assert (Lq : length q = (2 * c + 1)%nat) by (unfold q; rewrite !app_length, !repeat_length; lia). split; [exact Lq|]. pose proof HE as (_ & Hw0 & _ & _ & Hb).
  assert (Own : forall i, (nth i q 0 == 0) \/ exists x, In (x, nth i q 0) (combine bins p) /\ x == grid_x w c i).
  { intros i. unfold q. destruct (Nat.lt_ge_cases i (pad_left bins w')) as [C1|C1]; [left; rewrite app_nth1 by (rewrite repeat_length; assumption); now rewrite nth_repeat|]. rewrite app_nth2; rewrite repeat_length; [|assumption]. destruct (Nat.lt_ge_cases (i - pad_left bins w') (length p)) as [C2|C2].
    - right. rewrite app_nth1 by assumption. set (j := (i - pad_left bins w')%nat) in *. exists (nth j bins 0). split.
      + rewrite <- (combine_nth bins p j 0 0) by now symmetry. apply nth_In. rewrite combine_length. lia.
      + rewrite (Hb j (nth j bins 0)) by (apply nth_error_nth_d; lia). unfold grid_x. rewrite inject_sub. replace (Z.of_nat i) with (Z.of_nat j + Z.of_nat (pad_left bins w'))%Z by (unfold j; lia). rewrite Hc, Nat2Z.inj_add, !inject_Z_plus. unfold qnat. ring.
    - left. rewrite app_nth2 by assumption. now rewrite nth_repeat. }
  split; [intros v; apply (padded_same bins p w' c m n v Lp w G Hc Lq)|]. split; [unfold q; rewrite !sumQ_app, !sumQ_zeros; ring|]. split.
  { pose proof (padded_same bins p w' c m) as P. unfold mean_of.
    assert (E : sumF (fun e => fst e * snd e) (grid w c q) == sumF (fun e => fst e * snd e) (combine (padded_bins bins w') q)).
    { destruct G as [G1 G2 _]. unfold grid. rewrite <- G1. rewrite sumF_map'. cbn [fst snd]. assert (E2 : forall l l' : list Q, length l = length l' -> sumF (fun e => fst e * snd e) (combine l l') == sumF (fun i => nth i l 0 * nth i l' 0) (seq 0 (length l))).
      { clear. induction l as [|a l IH]; intros [|b l'] H; try discriminate; [reflexivity|]. cbn [combine length seq]. rewrite !sumF_cons, <- seq_shift, sumF_map'. injection H as H. rewrite (IH l' H). reflexivity. }
      rewrite (E2 _ q) by lia. apply sumF_ext. intros i Hi. apply in_seq in Hi. rewrite <- (G2 i _ (nth_error_nth_d (padded_bins bins w') i 0 ltac:(lia))). reflexivity. }
    rewrite E. unfold padded_bins, q. rewrite combine_app by now rewrite length_ramp, repeat_length. rewrite combine_app by now symmetry. rewrite !sumF_app. rewrite (sumF_zero _ (combine _ (repeat 0 (pad_left bins w')))), (sumF_zero _ (combine _ (repeat 0 (pad_right bins w')))); [ring| |]; intros e He; apply in_combine_zeros in He; rewrite He; ring. }
  split; [exact Own|]. intros Hs. exists (c / n)%nat. split; [apply Nat.mul_div_le; lia|]. intros i Hi. destruct (Own i) as [H|(x & Hx & Ex)]; [contradiction|]. specialize (Hs x _ Hx Hi). rewrite Ex in Hs. unfold grid_x in Hs. rewrite Qabs_Qmult, abs_inject, (Qabs_pos w) in Hs by lra.
  assert (B : (Z.of_nat n * Z.abs (Z.of_nat i - Z.of_nat c) <= Z.of_nat c)%Z). { pose proof (grid_top _ _ _ G) as GT. assert (B : (Z.of_nat n * Z.abs (Z.of_nat i - Z.of_nat c) <= Qfloor (100 / w))%Z); [|lia]. rewrite <- (Qfloor_Z (Z.of_nat n * Z.abs (Z.of_nat i - Z.of_nat c))). apply Qfloor_resp_le. apply Qle_shift_div_l; [assumption|]. rewrite inject_Z_mult. unfold qnat in Hs. lra. }
  rewrite Nat2Z.inj_div by lia. apply Z.div_le_lower_bound; lia.
Qed.

Lemma total_pow w c q n s : 0 < w -> length q = (2 * c + 1)%nat -> (forall i, ~ nth i q 0 == 0 -> (Z.abs (Z.of_nat i - Z.of_nat c) <= Z.of_nat s)%Z) -> sumQ q == 1 -> (n * s <= c)%nat ->
  total w c q n == 1 /\ w * moment w c q n == qnat n * mean_of (grid w c q).
Proof.
  intros Hw Lq Near Hq. assert (Sq : sumF (fun i => nth i q 0) (seq 0 (2 * c + 1)) == 1) by (rewrite <- Lq, sum_list; assumption). induction n as [|n IH]; intros Hs.
  - split; [apply (total_0 w c q Hw Lq s Near)|]. change (qnat 0) with 0. unfold moment. rewrite (window_ext _ (fun _ => 0)) by (intros z; rewrite dist_0 by assumption; destruct (Z.eqb_spec z 0) as [->|_]; [change (inject_Z 0) with 0|]; ring). rewrite (window_zero c q Lq (fun _ => 0)) by reflexivity. ring.
  - destruct IH as [I1 I2]; [lia|]. rewrite (total_S w c q Hw Lq s Near n Hs), (moment_S w c q Hw Lq s Near n Hs), Sq, I1. split; [ring|]. rewrite qnat_S. setoid_replace (w * (sumF (fun i : nat => inject_Z (Z.of_nat i - Z.of_nat c) * nth i q 0) (seq 0 (2 * c + 1)) * 1 + 1 * moment w c q n)) with (w * sumF (fun i : nat => inject_Z (Z.of_nat i - Z.of_nat c) * nth i q 0) (seq 0 (2 * c + 1)) + w * moment w c q n) by ring.
    rewrite I2. assert (M : w * sumF (fun i : nat => inject_Z (Z.of_nat i - Z.of_nat c) * nth i q 0) (seq 0 (2 * c + 1)) == mean_of (grid w c q)). { unfold mean_of, grid. rewrite sumF_map', <- sumF_scale. apply sumF_ext. intros i _. cbn [fst snd]. unfold grid_x. ring. } rewrite M. ring.
Qed.

(** one sensor: each bin has the probability that the samples add up to it, nothing is lost and the mean is that of the samples *)
Lemma one_distribution bins m w p n w' : around_zero bins m w -> length p = length bins -> (0 < n)%nat -> pad_width bins = Ok w' ->
  let xs := padded_bins bins w' in let pdf := row (repeat 0 (pad_left bins w') ++ p ++ repeat 0 (pad_right bins w')) n in
  length pdf = length xs /\
  (Forall (fun q => 0 <= q) p -> forall k x y, nth_error xs k = Some x -> nth_error pdf k = Some y -> 0 <= y /\ y <= prob_of_sum (combine bins p) n x) /\
  (small_noise bins p n -> (forall k x y, nth_error xs k = Some x -> nth_error pdf k = Some y -> y == prob_of_sum (combine bins p) n x) /\
     (sumQ p == 1 -> sumQ pdf == 1 /\ sumQ (map2 Qmult xs pdf) == qnat n * mean_of (combine bins p))).
Proof.
  intros HA Lp Hn Hw'. destruct (one_row bins m w p n HA Lp Hn) as (w1 & c & Hw1 & G & R). assert (w1 = w') as -> by congruence. cbn zeta in *. set (q := repeat 0 (pad_left bins w') ++ p ++ repeat 0 (pad_right bins w')) in *. set (xs := padded_bins bins w') in *. destruct R as (Lq & Same & Sq & Mq & Own & Nr). destruct HA as ((_ & Hw & _) & _).
  pose proof (length_row c q Lq n Hn) as Lr. destruct G as [G1 G2 G3].
  assert (D : forall k x, nth_error xs k = Some x -> (k <= 2 * c)%nat /\ dist w c q n (Z.of_nat k - Z.of_nat c) == prob_of_sum (combine bins p) n x).
  { intros k x Hk. split; [assert ((k < length xs)%nat) by (apply nth_error_Some; congruence); lia|]. unfold dist. rewrite Same. apply pos_proper. now rewrite (G2 k x Hk). }
  assert (E : forall k y, nth_error (row q n) k = Some y -> nth k (row q n) 0 = y) by (intros k y Hy; apply nth_error_nth, Hy).
  split; [rewrite Lr; now symmetry|]. split.
  - intros Hp k x y Hx Hy. destruct (D k x Hx) as [Hk Dk]. assert (Nq : forall i, 0 <= nth i q 0). { intros i. destruct (Own i) as [->|(z & Hz & _)]; [lra|]. apply in_combine_r in Hz. rewrite Forall_forall in Hp. now apply Hp. }
    rewrite <- (E k y Hy), <- Dk. apply (row_le w c q Hw Lq n k Nq Hn Hk).
  - intros Hs. destruct (Nr Hs) as (s & Hsc & Near). split.
    + intros k x y Hx Hy. destruct (D k x Hx) as [Hk Dk]. rewrite <- (E k y Hy), <- Dk. exact (row_dist w c q Hw Lq s Near n k Hn Hsc Hk).
    + intros S1. destruct (total_pow w c q n s Hw Lq Near) as [T1 T2]; [now rewrite Sq|assumption|]. split.
      * rewrite <- (sum_list (row q n)), Lr. rewrite <- T1. unfold total, window. apply sumF_ext. intros k Hk. apply in_seq in Hk. rewrite (row_dist w c q Hw Lq s Near n k Hn Hsc) by lia. replace (- Z.of_nat c + Z.of_nat k)%Z with (Z.of_nat k - Z.of_nat c)%Z by lia. reflexivity.
      * rewrite <- Mq, <- T2. rewrite <- (sum_list (map2 Qmult xs (row q n))). assert (L2 : length (map2 Qmult xs (row q n)) = (2 * c + 1)%nat) by (rewrite length_map2'; lia). rewrite L2. unfold moment, window. rewrite <- sumF_scale. apply sumF_ext. intros k Hk. apply in_seq in Hk.
        assert (En : nth_error (map2 Qmult xs (row q n)) k = Some (nth k xs 0 * nth k (row q n) 0)) by (apply nth_error_map2; apply nth_error_nth_d; lia). rewrite (nth_error_nth _ _ 0 En). rewrite (row_dist w c q Hw Lq s Near n k Hn Hsc) by lia. rewrite (G2 k _ (nth_error_nth_d xs k 0 ltac:(lia))). replace (- Z.of_nat c + Z.of_nat k)%Z with (Z.of_nat k - Z.of_nat c)%Z by lia. unfold grid_x. ring.
Qed.

(** multi_sample_distributions: the distributions of the sum of [n] samples *)
Theorem C78_distribution bins m w probs n : around_zero bins m w -> Forall (fun p => length p = length bins) probs -> (0 < n)%nat ->
  exists xs rows pdfs, pad_pdfs bins probs = Ok (xs, rows) /\ multi_sample_distributions bins probs n = Ok pdfs /\ length pdfs = length probs /\
    forall r p pdf, nth_error probs r = Some p -> nth_error pdfs r = Some pdf -> length pdf = length xs /\
      (Forall (fun q => 0 <= q) p -> forall k x y, nth_error xs k = Some x -> nth_error pdf k = Some y -> 0 <= y /\ y <= prob_of_sum (combine bins p) n x) /\
      (small_noise bins p n -> (forall k x y, nth_error xs k = Some x -> nth_error pdf k = Some y -> y == prob_of_sum (combine bins p) n x) /\
         (sumQ p == 1 -> sumQ pdf == 1 /\ sumQ (map2 Qmult xs pdf) == qnat n * mean_of (combine bins p))).
Proof.
  intros HA HF Hn. destruct HA as (HE & HA). destruct (width_is _ _ _ HE) as (w' & Hw' & _). unfold multi_sample_distributions, pad_pdfs. rewrite Hw'. cbn [rbind snd fst]. eexists _, _, _. split; [reflexivity|]. rewrite multi_rows by assumption. split; [reflexivity|]. split; [now rewrite !map_length|].
  intros r p pdf Hp Hpdf. rewrite map_map in Hpdf. erewrite map_nth_error in Hpdf by eassumption. injection Hpdf as <-. rewrite Forall_forall in HF. apply (one_distribution bins m w p n w'); [now split|apply HF; eapply nth_error_In, Hp|assumption|assumption].
Qed.
Print Assumptions C78_distribution.

Lemma cumulative_ext p p' k : Forall2 Qeq p p' -> cumulative p k == cumulative p' k.
Proof. unfold cumulative. intros F. revert k. induction F as [|x y p p' E F IH]; intros [|k]; cbn [firstn sumQ]; try reflexivity. now rewrite E, IH. Qed.
Lemma threshold_ext xs p p' cut t : Forall2 Qeq p p' -> is_threshold xs p cut t -> is_threshold xs p' cut t.
Proof. intros F (k & H1 & H2 & H3 & H4). exists k. rewrite <- (Forall2_len _ _ _ F). repeat split; try assumption; [rewrite <- (cumulative_ext _ _ _ F); assumption|]. intros j Hj. rewrite <- (cumulative_ext _ _ _ F). now apply H4. Qed.
Lemma F2_nth (l l' : list Q) : length l = length l' -> (forall i x y, nth_error l i = Some x -> nth_error l' i = Some y -> x == y) -> Forall2 Qeq l l'.
Proof. revert l'. induction l as [|a l IH]; intros [|b l'] H E; try discriminate; constructor; [now apply (E 0%nat)|]. apply IH; [now injection H|]. intros i. apply (E (S i)). Qed.

(** the sensors in use have normalized noise that cannot reach the ends of the bins *)
Definition good_noise (bins : list Q) (active : list bool) (probs : list (list Q)) (n : nat) : Prop :=
  length active = length probs /\ Forall (fun p => length p = length bins) probs /\
  forall r p, nth_error active r = Some true -> nth_error probs r = Some p -> sumQ p == 1 /\ small_noise bins p n.

(** the level of the dark noise: the first bin not exceeded in 99% of the cases, or the mean; zero for masked sensors *)
Theorem C78_dark_threshold bins m w active probs n : around_zero bins m w -> good_noise bins active probs n -> (0 < n)%nat ->
  exists xs rows dark, pad_pdfs bins probs = Ok (xs, rows) /\ dark_expectation bins active probs n dark_threshold = Ok dark /\ length dark = length probs /\
    forall r a p, nth_error active r = Some a -> nth_error probs r = Some p ->
      (a = false -> nth_error dark r = Some (Fin 0)) /\
      (a = true -> exists t, nth_error dark r = Some (Fin t) /\ is_threshold xs (map (prob_of_sum (combine bins p) n) xs) (99#100) t).
Proof.
  intros HA (La & HF & Hgood) Hn. destruct (C78_distribution bins m w probs n HA HF Hn) as (xs & rows & pdfs & E1 & E2 & L & D). exists xs, rows. unfold dark_expectation. rewrite E1, E2. cbn [rbind fst]. unfold mask. rewrite La, L, Nat.eqb_refl. cbn [rbind].
  set (msk := fun (a : bool) (p : list Q) => if a then p else map (fun x => x * 0) p). set (ps := map normalize (map2 msk active pdfs)).
  assert (Lps : length ps = length probs) by (unfold ps; rewrite map_length, length_map2'; congruence).
  assert (Np : forall r a pdf, nth_error active r = Some a -> nth_error pdfs r = Some pdf -> nth_error ps r = Some (normalize (msk a pdf))) by (intros r a pdf Ha Hr; unfold ps; apply map_nth_error, nth_error_map2; assumption).
  assert (Row : forall r a p pdf, nth_error active r = Some a -> nth_error probs r = Some p -> nth_error pdfs r = Some pdf ->
    (a = false -> inverse_cdf xs (np_cumsum (normalize (msk a pdf))) (99#100) = Ok Inf) /\
    (a = true -> exists t, inverse_cdf xs (np_cumsum (normalize (msk a pdf))) (99#100) = Ok (Fin t) /\ is_threshold xs (map (prob_of_sum (combine bins p) n) xs) (99#100) t)).
  { intros r a p pdf Ha Hp Hr. destruct (D r p pdf Hp Hr) as (Ll & _ & D2). split; intros ->; cbn [msk].
    - apply C50_no_noise. assert (Z : Forall (fun q => q == 0) (map (fun x => x * 0) pdf)) by (apply Forall_map, Forall_forall; intros q _; ring). assert (Es : sumQ (map (fun x => x * 0) pdf) == 0). { clear - Z. induction Z as [|x l H Z IH]; cbn; [reflexivity|]. rewrite H, IH. reflexivity. } unfold normalize. destruct (Qeqb_spec (sumQ (map (fun x => x * 0) pdf)) 0); [exact Z|contradiction].
    - destruct (Hgood r p Ha Hp) as [S1 Sm]. destruct (D2 Sm) as [D3 D4]. destruct (D4 S1) as [D5 _].
      assert (Nz : ~ sumQ pdf == 0) by lra. assert (En : normalize pdf = map (fun x => x / sumQ pdf) pdf) by (unfold normalize; destruct (Qeqb_spec (sumQ pdf) 0); [contradiction|reflexivity]). rewrite En.
      assert (St : sumQ (map (fun x => x / sumQ pdf) pdf) == 1) by (rewrite sumQ_scaled by assumption; field; assumption).
      destruct (C50_exists xs (map (fun x => x / sumQ pdf) pdf) (99#100)) as (t & T1 & T2); [now rewrite map_length|apply sumQ_nonzero; lra|lra|]. exists t. split; [exact T1|]. apply threshold_ext with (2 := T2). apply F2_nth; [rewrite !map_length; exact Ll|]. intros i x y Hx Hy.
      rewrite nth_error_map in Hx, Hy. destruct (nth_error pdf i) as [u|] eqn:Eu; [|discriminate]. destruct (nth_error xs i) as [v|] eqn:Ev; [|discriminate]. injection Hx as <-. injection Hy as <-. rewrite D5, (D3 i v u Ev Eu). field. }
  assert (Ex : forall r, (r < length probs)%nat -> exists a p pdf, nth_error active r = Some a /\ nth_error probs r = Some p /\ nth_error pdfs r = Some pdf).
  { intros r Hr. destruct (nth_error active r) as [a|] eqn:Ea; [|apply nth_error_None in Ea; lia]. destruct (nth_error probs r) as [p|] eqn:Ep; [|apply nth_error_None in Ep; lia]. destruct (nth_error pdfs r) as [d|] eqn:Ed; [|apply nth_error_None in Ed; lia]. now exists a, p, d. }
  unfold general_thresholds. destruct (rmap_all_ok (fun p => inverse_cdf xs (np_cumsum p) (99#100)) ps) as (cuts & Hc).
  { intros q Hq. apply In_nth_error in Hq. destruct Hq as (r & Hq). destruct (Ex r) as (a & p & pdf & A1 & A2 & A3); [rewrite <- Lps; apply nth_error_Some; congruence|]. rewrite (Np r a pdf A1 A3) in Hq. injection Hq as <-. destruct (Row r a p pdf A1 A2 A3) as [R1 R2]. destruct a; [destruct (R2 eq_refl) as (t & Ht & _); now exists (Fin t)|exists Inf; now apply R1]. }
  rewrite Hc. cbn [rbind]. destruct (rmap_nth_ok _ _ _ Hc) as [Lc Nc]. eexists. split; [reflexivity|]. split; [reflexivity|]. split; [rewrite length_map2'; congruence|]. intros r a p Ha Hp. destruct (Ex r) as (a' & p' & pdf & A1 & A2 & A3); [apply nth_error_Some; congruence|]. assert (a' = a) as -> by congruence. assert (p' = p) as -> by congruence. destruct (Row r a p pdf A1 A2 A3) as [R1 R2]. destruct (Nc r _ (Np r a pdf A1 A3)) as (b & B1 & B2). rewrite (nth_error_map2 _ _ _ r a b Ha B1). split; intros ->; [reflexivity|]. destruct (R2 eq_refl) as (t & T1 & T2). exists t. split; [congruence|assumption].
Qed.
Print Assumptions C78_dark_threshold.

Theorem C78_dark_mean bins m w active probs n : around_zero bins m w -> good_noise bins active probs n -> (0 < n)%nat ->
  exists dark, dark_expectation bins active probs n dark_mean = Ok dark /\ length dark = length probs /\
    forall r a p, nth_error active r = Some a -> nth_error probs r = Some p ->
      (a = false -> nth_error dark r = Some (Fin 0)) /\
      (a = true -> exists d, nth_error dark r = Some (Fin d) /\ d == qnat n * mean_of (combine bins p)).
Proof.
  intros HA (La & HF & Hgood) Hn. destruct (C78_distribution bins m w probs n HA HF Hn) as (xs & rows & pdfs & E1 & E2 & L & D). unfold dark_expectation. rewrite E1, E2. cbn [rbind fst].
  set (f := fun ap : bool * list Q => if fst ap then rbind (average xs (snd ap)) (fun d => Ok (Fin d)) else Ok (Fin 0)).
  assert (Row : forall r a p pdf, nth_error active r = Some a -> nth_error probs r = Some p -> nth_error pdfs r = Some pdf ->
    (a = false -> f (a, pdf) = Ok (Fin 0)) /\ (a = true -> exists d, f (a, pdf) = Ok (Fin d) /\ d == qnat n * mean_of (combine bins p))).
  { intros r a p pdf Ha Hp Hr. destruct (D r p pdf Hp Hr) as (Ll & _ & D2). split; intros ->; [reflexivity|]. destruct (Hgood r p Ha Hp) as [S1 Sm]. destruct (D2 Sm) as [_ D4]. destruct (D4 S1) as [D5 D6]. unfold f. cbn [fst snd]. unfold average. destruct (Qeqb_spec (sumQ pdf) 0) as [H|H]; [lra|]. cbn [rbind]. eexists. split; [reflexivity|]. rewrite D5, D6. field. }
  assert (Cn : forall r a pdf, nth_error active r = Some a -> nth_error pdfs r = Some pdf -> nth_error (combine active pdfs) r = Some (a, pdf)).
  { clear. revert pdfs. induction active as [|b l IH]; intros [|q pdfs] [|r] a pdf H1 H2; try discriminate; cbn in *; [congruence|now apply IH]. }
  assert (Ex : forall r, (r < length probs)%nat -> exists a p pdf, nth_error active r = Some a /\ nth_error probs r = Some p /\ nth_error pdfs r = Some pdf).
  { intros r Hr. destruct (nth_error active r) as [a|] eqn:Ea; [|apply nth_error_None in Ea; lia]. destruct (nth_error probs r) as [p|] eqn:Ep; [|apply nth_error_None in Ep; lia]. destruct (nth_error pdfs r) as [d|] eqn:Ed; [|apply nth_error_None in Ed; lia]. now exists a, p, d. }
  destruct (rmap_all_ok f (combine active pdfs)) as (dark & Hd).
  { intros ap Hq. apply In_nth_error in Hq. destruct Hq as (r & Hq). assert (Hr : (r < length probs)%nat) by (assert ((r < length (combine active pdfs))%nat) by (apply nth_error_Some; congruence); rewrite combine_length in *; lia). destruct (Ex r Hr) as (a & p & pdf & A1 & A2 & A3). rewrite (Cn r a pdf A1 A3) in Hq. injection Hq as <-. destruct (Row r a p pdf A1 A2 A3) as [R1 R2]. destruct a; [destruct (R2 eq_refl) as (t & Ht & _); now exists (Fin t)|exists (Fin 0); now apply R1]. }
  exists dark. split; [exact Hd|]. destruct (rmap_nth_ok _ _ _ Hd) as [Lc Nc]. split; [rewrite Lc, combine_length; lia|]. intros r a p Ha Hp. destruct (Ex r) as (a' & p' & pdf & A1 & A2 & A3); [apply nth_error_Some; congruence|]. assert (a' = a) as -> by congruence. assert (p' = p) as -> by congruence. destruct (Row r a p pdf A1 A2 A3) as [R1 R2]. destruct (Nc r _ (Cn r a pdf A1 A3)) as (b & B1 & B2). rewrite B1. split; intros H; [rewrite (R1 H) in B2; congruence|]. destruct (R2 H) as (d & D1 & D2). exists d. split; [congruence|assumption].
Qed.
Print Assumptions C78_dark_mean.

(** the signal to noise of each charge, with the dark level of its own sensor *)
Theorem C78_signal sqrt bins m w active probs n ids charges : around_zero bins m w -> good_noise bins active probs n -> (0 < n)%nat ->
  length ids = length charges -> Forall (fun i => (i < length probs)%nat) ids ->
  exists xs rows out, pad_pdfs bins probs = Ok (xs, rows) /\ signal_to_noise sqrt bins active probs ids charges (Z.of_nat n) dark_threshold = Ok out /\ length out = length charges /\
    forall j i a p q, nth_error ids j = Some i -> nth_error active i = Some a -> nth_error probs i = Some p -> nth_error charges j = Some q ->
      exists t, (a = false -> t = 0) /\ (a = true -> is_threshold xs (map (prob_of_sum (combine bins p) n) xs) (99#100) t) /\
        (0 < q + t -> nth_error out j = Some (Fin (q / sqrt (q + t)))) /\ (q + t < 0 -> nth_error out j = Some NaN).
Proof.
  intros HA HG Hn Li Hi. destruct (C78_dark_threshold bins m w active probs n HA HG Hn) as (xs & rows & dark & E1 & E2 & L & D). exists xs, rows. unfold signal_to_noise. destruct (Z.ltb_spec (Z.of_nat n) 1); [lia|]. rewrite Nat2Z.id, E2. cbn [rbind].
  set (f := fun i => match nth_error dark i with Some d => Ok d | None => Err IndexError end). destruct (rmap_all_ok f ids) as (lv & Hl).
  { intros i Hin. rewrite Forall_forall in Hi. specialize (Hi i Hin). unfold f. destruct (nth_error dark i) as [d|] eqn:E; [now exists d|]. apply nth_error_None in E. lia. }
  rewrite Hl. cbn [rbind]. destruct (rmap_nth_ok _ _ _ Hl) as [Ll Nl]. rewrite Ll, Li, Nat.eqb_refl. eexists. split; [exact E1|]. split; [reflexivity|]. split; [rewrite length_map2'; congruence|]. intros j i a p q Hj Ha Hp Hq.
  destruct (Nl j i Hj) as (d & Hd1 & Hd2). unfold f in Hd2. rewrite (nth_error_map2 _ _ _ j q d Hq Hd1). destruct (D i a p Ha Hp) as [D1 D2].
  assert (T : exists t, d = Fin t /\ (a = false -> t = 0) /\ (a = true -> is_threshold xs (map (prob_of_sum (combine bins p) n) xs) (99 # 100) t)).
  { destruct a; [destruct (D2 eq_refl) as (t & T1 & T2); rewrite T1 in Hd2; injection Hd2 as <-; exists t; repeat split; [discriminate|intros _; exact T2]|]. rewrite (D1 eq_refl) in Hd2. injection Hd2 as <-. exists 0. repeat split; discriminate. }
  destruct T as (t & -> & T1 & T2). exists t. split; [exact T1|]. split; [exact T2|]. cbn [over_noise]. split; intros Hs; destruct (Qltb_spec (q + t) 0); try lra; [|reflexivity]. destruct (Qltb_spec 0 (q + t)); [reflexivity|lra].
Qed.
Print Assumptions C78_signal.
Theorem C78_width sqrt bins active probs ids charges width m : (width < 1)%Z -> signal_to_noise sqrt bins active probs ids charges width m = Err ValueError.
Proof. intros H. unfold signal_to_noise. destruct (Z.ltb_spec width 1); [reflexivity|lia]. Qed.

(** ---- samples of noise and response of the SiPMs ---- *)
Lemma nth_error_map2_inv {A B C} (f : A -> B -> C) l m i c : nth_error (map2 f l m) i = Some c -> exists a b, nth_error l i = Some a /\ nth_error m i = Some b /\ c = f a b.
Proof. revert l m. induction i as [|i IH]; intros [|a l] [|b m] H; try discriminate; cbn in *; [injection H as <-; now exists a, b|now apply IH]. Qed.
Theorem C78_sample bins active p adc_to_pes baseline draws smears dx : length p = length bins -> length smears = length draws ->
  (~ Forall (fun q => q == 0) p -> Forall (fun i => (i < length bins)%nat /\ ~ nth i p 0 == 0) draws) -> Forall (fun u => Qabs u <= dx) smears ->
  let out := sample_row bins active p adc_to_pes baseline draws smears in
  length out = length draws /\ forall k y, nth_error out k = Some y ->
    (active = false -> y == 0) /\
    (active = true -> exists x u, Qabs u <= dx /\ y == adc_to_pes * (x + u) + baseline /\
       ((Forall (fun q => q == 0) p /\ x = 0) \/ exists q, In (x, q) (combine bins p) /\ ~ q == 0)).
Proof.
  intros Lp Ls Hd Hu. cbn zeta. unfold sample_row, sample_discrete. assert (N : forallb (fun x => Qeqb x 0) p = true <-> Forall (fun q => q == 0) p).
  { rewrite forallb_forall, Forall_forall. split; intros H x Hx; specialize (H x Hx); destruct (Qeqb_spec x 0); try assumption; [discriminate|reflexivity|contradiction]. }
  destruct (forallb (fun x => Qeqb x 0) p) eqn:E.
  - split; [rewrite length_map2'; rewrite map_length; congruence|]. intros k y Hy. destruct (nth_error_map2_inv _ _ _ _ _ Hy) as (x & u & Hx & Hku & ->). apply nth_error_In, in_map_iff in Hx as (i & <- & _). split; intros ->; [ring|]. exists 0, u. rewrite Forall_forall in Hu. split; [apply Hu; eapply nth_error_In, Hku|]. split; [ring|]. left. split; [now apply N|reflexivity].
  - split; [rewrite length_map2'; rewrite map_length; congruence|]. intros k y Hy. destruct (nth_error_map2_inv _ _ _ _ _ Hy) as (x & u & Hx & Hku & ->). apply nth_error_In, in_map_iff in Hx as (i & <- & Hin). split; intros ->; [ring|]. exists (nth i bins 0), u. rewrite Forall_forall in Hu. split; [apply Hu; eapply nth_error_In, Hku|]. split; [ring|]. right.
    assert (Hn : ~ Forall (fun q => q == 0) p) by (intros K; apply N in K; discriminate). specialize (Hd Hn). rewrite Forall_forall in Hd. destruct (Hd i Hin) as [H1 H2]. exists (nth i p 0). split; [|exact H2]. rewrite <- (combine_nth bins p i 0 0) by now symmetry. apply nth_In. rewrite combine_length. lia.
Qed.
Print Assumptions C78_sample.

(** charge never becomes negative, samples without charge get none, and without resolution it is unchanged *)
Lemma fluctuation_nth draw rms signal k q' : ~ rms == 0 -> nth_error (charge_fluctuation draw rms signal) k = Some q' ->
  exists q, nth_error signal k = Some q /\ (q <= 0 -> q' == 0) /\ (0 < q -> (0 <= draw k q -> q' = draw k q) /\ (draw k q < 0 -> q' = 0)).
Proof.
  intros Hr. unfold charge_fluctuation. destruct (Qeqb_spec rms 0) as [?|_]; [contradiction|]. unfold mapi.
  assert (G : forall l st i, nth_error (mapi_from st (fun i q => let q' := if Qltb 0 q then draw i q else q in if Qltb q' 0 then 0 else q') l) i = Some q' -> exists q, nth_error l i = Some q /\ (q <= 0 -> q' == 0) /\ (0 < q -> (0 <= draw (st + i)%nat q -> q' = draw (st + i)%nat q) /\ (draw (st + i)%nat q < 0 -> q' = 0))).
  { induction l as [|q l IH]; intros st [|i] H; cbn [mapi_from nth_error] in *; try discriminate.
    - injection H as <-. exists q. split; [reflexivity|]. rewrite Nat.add_0_r. cbn zeta. destruct (Qltb_spec 0 q) as [Hq|Hq].
      + split; [intros; lra|]. intros _. split; intros Hs; destruct (Qltb_spec (draw st q) 0); try reflexivity; lra.
      + split; [|intros; lra]. intros _. destruct (Qltb_spec q 0); lra.
    - destruct (IH (S st) i H) as (q0 & H1 & H2). exists q0. split; [exact H1|]. replace (st + S i)%nat with (S st + i)%nat by lia. exact H2. }
  intros H. exact (G signal 0%nat k H).
Qed.
Theorem C78_response draw rms adc_to_pes noise signal k y : nth_error (simulate_sipm draw rms adc_to_pes noise signal) k = Some y ->
  exists q q' s, nth_error signal k = Some q /\ nth_error noise k = Some s /\ y = q' * adc_to_pes + s /\
    (rms == 0 -> q' = q) /\ (~ rms == 0 -> 0 <= q' /\ (q <= 0 -> q' == 0) /\ (0 < q -> 0 <= draw k q -> q' = draw k q)).
Proof.
  intros H. unfold simulate_sipm in H. destruct (nth_error_map2_inv _ _ _ _ _ H) as (q' & s & H1 & H2 & ->). destruct (Qeq_dec rms 0) as [E|E].
  - unfold charge_fluctuation in H1. destruct (Qeqb_spec rms 0); [|contradiction]. exists q', q', s. split; [exact H1|]. split; [exact H2|]. split; [reflexivity|]. split; [reflexivity|intros; contradiction].
  - destruct (fluctuation_nth _ _ _ _ _ E H1) as (q & G1 & G2 & G3). exists q, q', s. split; [exact G1|]. split; [exact H2|]. split; [reflexivity|]. split; [intros; contradiction|]. intros _. split; [|split; [exact G2|intros Hq; now apply G3]]. destruct (Qlt_le_dec 0 q) as [Hq|Hq]; [|rewrite (G2 Hq); lra]. destruct (G3 Hq) as [G4 G5]. destruct (Qlt_le_dec (draw k q) 0) as [Hd|Hd]; [rewrite (G5 Hd); lra|]. rewrite (G4 Hd). exact Hd.
Qed.
Print Assumptions C78_response.

(** ---- examples ---- *)
Definition three_bins : list Q := [-(25); 0; 25].
Definition three_probs : list (list Q) := [[1#4; 1#2; 1#4]; [0; 1#4; 3#4]; [0; 0; 0]].
Lemma three_hypotheses : around_zero three_bins 1 25 /\ good_noise three_bins [true; true; false] three_probs 2.
Proof.
  split; [split; [|split; vm_compute; discriminate]|].
  - split; [cbn; lia|]. split; [reflexivity|]. split; [exists 2500000%Z; reflexivity|]. split; [exists (-2500000)%Z; reflexivity|]. intros [|[|[|[|i]]]] x H; cbn in H; try discriminate; injection H as <-; reflexivity.
  - split; [reflexivity|]. split; [repeat constructor|]. intros [|[|[|[|r]]]] p Ha Hp; cbn in Ha, Hp; try discriminate; injection Hp as <-; (split; [reflexivity|]); intros x q Hin _; cbn in Hin; repeat (destruct Hin as [Hin|Hin]; [injection Hin as <- _; vm_compute; discriminate|]); destruct Hin.
Qed.
Definition shown (r : result (list ext)) : result (list ext) := rbind r (fun l => Ok (map (fun e => match e with Fin q => Fin (Qred q) | e => e end) l)).
Example C78_example : shown (dark_expectation three_bins [true; true; false] three_probs 2 dark_threshold) = Ok [Fin 50; Fin 50; Fin 0] /\
  shown (dark_expectation three_bins [true; true; false] three_probs 2 dark_mean) = Ok [Fin 0; Fin (75 # 2); Fin 0].
Proof. split; vm_compute; reflexivity. Qed.
(** when zero is not at the centre of a bin the noise of several samples is displaced: two samples at 25 should add up to 50 *)
Theorem C78_displaced_refuted : evenly_spaced [-(75); -(25); 25; 75] (-(75)) 50 /\
  shown (dark_expectation [-(75); -(25); 25; 75] [true] [[0; 0; 1; 0]] 2 dark_mean) = Ok [Fin 75].
Proof.
  split; [|vm_compute; reflexivity]. split; [cbn; lia|]. split; [reflexivity|]. split; [exists 5000000%Z; reflexivity|]. split; [exists (-7500000)%Z; reflexivity|]. intros [|[|[|[|[|i]]]]] x H; cbn in H; try discriminate; injection H as <-; reflexivity.
Qed.
(** sums beyond 100 are lost: three samples at 50 have no distribution, an infinite threshold and no mean *)
Theorem C78_lost_refuted : around_zero [-(50); 0; 50] 1 50 /\
  dark_expectation [-(50); 0; 50] [true] [[0; 0; 1]] 3 dark_threshold = Ok [Inf] /\ dark_expectation [-(50); 0; 50] [true] [[0; 0; 1]] 3 dark_mean = Err ZeroDivisionError.
Proof.
  split; [|split; vm_compute; reflexivity]. split; [|split; vm_compute; discriminate]. split; [cbn; lia|]. split; [reflexivity|]. split; [exists 5000000%Z; reflexivity|]. split; [exists (-5000000)%Z; reflexivity|]. intros [|[|[|[|i]]]] x H; cbn in H; try discriminate; injection H as <-; reflexivity.
Qed.
Example C78_example_response : simulate_sipm (fun i q => if (i =? 2)%nat then -(1) else q + (1#2)) (1#10) 16 [1; 2; 3] [4; 0; 2] = [(4 + (1#2)) * 16 + 1; 0 * 16 + 2; 0 * 16 + 3] /\
  Forall2 Qeq (sample_row [0; 1; 2] true [1#2; 0; 1#2] 16 3 [2%nat; 0%nat] [1#4; -(1#4)]) [39; -(1)].
Proof. split; [vm_compute; reflexivity|]. repeat constructor. Qed.

(** ** C78: the edges are rounded to the nearest multiple of 1e-5, and to the even one of two *)
Theorem C78_round y : Qabs (y - inject_Z (round_even y)) <= 1 # 2 /\ (Qabs (y - inject_Z (round_even y)) == 1 # 2 -> Z.even (round_even y) = true).
Proof.
  unfold round_even. destruct (floor_bounds y) as [F1 F2]. set (f := Qfloor y) in *. assert (P1 : inject_Z (f + 1) == inject_Z f + 1) by (rewrite inject_Z_plus; reflexivity).
  destruct (Qltb_spec (y - inject_Z f) (1#2)) as [L|L].
  - rewrite Qabs_pos by lra. split; [lra|]. intros E. exfalso. lra.
  - destruct (Qltb_spec (1#2) (y - inject_Z f)) as [U|U].
    + rewrite Qabs_neg by (rewrite P1; lra). rewrite P1. split; [lra|]. intros E. exfalso. lra.
    + destruct (Z.even f) eqn:Ev.
      * rewrite Qabs_pos by lra. split; [lra|auto].
      * rewrite Qabs_neg by (rewrite P1; lra). rewrite P1. split; [lra|]. intros _. rewrite Z.even_add, Ev. reflexivity.
Qed.
Print Assumptions C78_round.
Example C78_round_ex : round_even (5#2) = 2%Z /\ round_even (7#2) = 4%Z /\ round_even (-(5#2)) = (-2)%Z.
Proof. repeat split; reflexivity. Qed.
Print Assumptions C78_width.
Print Assumptions C78_displaced_refuted.
Print Assumptions C78_lost_refuted.
