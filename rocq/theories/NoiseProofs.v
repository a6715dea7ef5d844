From Coq Require Import QArith ZArith List Lia Lqa Qround Qabs.
From Verif Require Import Base Arrays BuffersProofs DbModel DbSpec DbThr NoiseModel NoiseSpec.
Import ListNotations.
Local Open Scope Q_scope.

Lemma round5_exact x : five_decimals x -> round5 x == x.
Proof.
  intros (z & E). unfold round5. assert (E' : x * 100000 == inject_Z z) by (rewrite E; field).
  assert (F : round_even (x * 100000) = z).
  { unfold round_even. assert (Hf : Qfloor (x * 100000) = z) by (rewrite E'; apply Qfloor_Z). rewrite Hf. destruct (Qltb_spec (x * 100000 - inject_Z z) (1#2)); [reflexivity|]. exfalso. lra. }
  rewrite F, E. reflexivity.
Qed.
Lemma five_lin x y k : five_decimals x -> five_decimals y -> five_decimals (x + inject_Z k * y).
Proof. intros (a & Ea) (b & Eb). exists (a + k * b)%Z. rewrite Ea, Eb, inject_Z_plus, inject_Z_mult. field. Qed.
Lemma five_eq x y : x == y -> five_decimals x -> five_decimals y.
Proof. intros E (z & H). exists z. now rewrite <- E. Qed.

Lemma inject_sub a b : inject_Z (a - b) == inject_Z a - inject_Z b.
Proof. unfold Z.sub. rewrite inject_Z_plus, inject_Z_opp. ring. Qed.
Lemma length_ramp a b n : length (ramp a b n) = n.
Proof. unfold ramp. now rewrite map_length, seq_length. Qed.
Lemma nth_ramp a b n i : (i < n)%nat -> nth i (ramp a b n) 0 = a + qnat i * ((b - a) / qnat n).
Proof. intros H. unfold ramp. rewrite (nth_indep _ 0 ((fun i => a + qnat i * ((b - a) / qnat n)) 0%nat)) by (rewrite map_length, seq_length; assumption). rewrite (map_nth (fun i => a + qnat i * ((b - a) / qnat n))), seq_nth by assumption. reflexivity. Qed.
Lemma qnat_pos n : (0 < n)%nat -> 0 < qnat n.
Proof. intros H. unfold qnat. change 0 with (inject_Z 0). rewrite <- Zlt_Qlt. lia. Qed.
Lemma qnat_S n : qnat (S n) == qnat n + 1.
Proof. unfold qnat. rewrite Nat2Z.inj_succ. unfold Z.succ. rewrite inject_Z_plus. reflexivity. Qed.
Lemma qnat_plus a b : qnat (a + b) == qnat a + qnat b.
Proof. unfold qnat. rewrite Nat2Z.inj_add, inject_Z_plus. reflexivity. Qed.
Lemma last_nth {A} (l : list A) d : last l d = nth (length l - 1) l d.
Proof. induction l as [|a l IH]; [reflexivity|]. destruct l as [|b l]; [reflexivity|]. change (last (a :: b :: l) d) with (last (b :: l) d). rewrite IH. cbn [length]. replace (S (S (length l)) - 1)%nat with (S (S (length l) - 1))%nat by lia. reflexivity. Qed.
Lemma nth_error_nth_d {A} (l : list A) i d : (i < length l)%nat -> nth_error l i = Some (nth i l d).
Proof. apply nth_error_nth'. Qed.

Lemma hd_first bins f w : evenly_spaced bins f w -> hd 0 bins == f.
Proof. intros (H1 & H2 & _ & _ & H). destruct bins as [|b bins]; [cbn in H1; lia|]. cbn. rewrite (H 0%nat b eq_refl). change (inject_Z (Z.of_nat 0)) with 0. ring. Qed.
Lemma last_bin bins f w : evenly_spaced bins f w -> last bins 0 == f + qnat (length bins - 1) * w.
Proof. intros (H1 & H2 & _ & _ & H). rewrite last_nth. apply (H (length bins - 1)%nat). apply nth_error_nth_d. lia. Qed.
Lemma width_is bins f w : evenly_spaced bins f w -> exists w', pad_width bins = Ok w' /\ w' == w.
Proof.
  intros (H1 & H2 & H3 & _ & H). destruct bins as [|b0 [|b1 bins]]; cbn in H1; try lia. pose proof (H 0%nat b0 eq_refl) as E0. pose proof (H 1%nat b1 eq_refl) as E1. change (inject_Z (Z.of_nat 0)) with 0 in E0. change (inject_Z (Z.of_nat 1)) with 1 in E1. unfold pad_width. exists (round5 (b1 - b0)). assert (E : b1 - b0 == w) by (rewrite E0, E1; ring).
  assert (R : round5 (b1 - b0) == w) by (rewrite round5_exact; [assumption|]; apply five_eq with w; [now symmetry|assumption]). destruct (Qltb_spec 0 (round5 (b1 - b0))); [now split|]. exfalso. lra.
Qed.

(** the padded bins go on with the same step *)
Lemma padded_nth bins f w w' : evenly_spaced bins f w -> w' == w ->
  length (padded_bins bins w') = (pad_left bins w' + length bins + pad_right bins w')%nat /\
  forall k, (k < length (padded_bins bins w'))%nat -> nth k (padded_bins bins w') 0 == f + (qnat k - qnat (pad_left bins w')) * w.
Proof.
  intros HE Ew. pose proof (hd_first _ _ _ HE) as Hh. pose proof (last_bin _ _ _ HE) as Hl. destruct HE as (H1 & H2 & H3 & H4 & H). unfold padded_bins. set (p0 := pad_left bins w'). set (p1 := pad_right bins w'). rewrite !app_length, rev_length, !length_ramp. split; [lia|]. intros k Hk.
  assert (Rmin : round5 (hd 0 bins - qnat p0 * w') == f - qnat p0 * w).
  { rewrite round5_exact; [now rewrite Hh, Ew|]. apply five_eq with (f + inject_Z (- Z.of_nat p0) * w); [|now apply five_lin]. rewrite Hh, Ew, inject_Z_opp. unfold qnat. ring. }
  assert (Rmax : round5 (last bins 0 + qnat p1 * w') == f + qnat (length bins - 1) * w + qnat p1 * w).
  { rewrite round5_exact; [now rewrite Hl, Ew|]. apply five_eq with (f + inject_Z (Z.of_nat (length bins - 1 + p1)) * w); [|now apply five_lin]. rewrite Hl, Ew, Nat2Z.inj_add, inject_Z_plus. unfold qnat. ring. }
  destruct (Nat.lt_ge_cases k p0) as [C1|C1].
  - rewrite app_nth1 by now rewrite length_ramp. rewrite nth_ramp by assumption. rewrite Rmin, Hh. pose proof (qnat_pos p0 ltac:(lia)). field. lra.
  - rewrite app_nth2; rewrite length_ramp; [|assumption]. destruct (Nat.lt_ge_cases (k - p0) (length bins)) as [C2|C2].
    + rewrite app_nth1 by assumption. rewrite (H (k - p0)%nat _ (nth_error_nth_d _ _ _ C2)). unfold qnat. rewrite Nat2Z.inj_sub by assumption. unfold Z.sub. rewrite inject_Z_plus, inject_Z_opp. ring.
    + rewrite app_nth2 by assumption. rewrite rev_nth; rewrite length_ramp; [|lia]. rewrite nth_ramp by lia. rewrite Rmax, Hl. set (j := (k - p0 - length bins)%nat). pose proof (qnat_pos p1 ltac:(lia)).
      assert (Ek : qnat k == qnat p0 + qnat (length bins - 1) + qnat j + 1). { unfold j. rewrite <- !qnat_plus, <- qnat_S. replace (S (p0 + (length bins - 1) + (k - p0 - length bins))) with k by lia. reflexivity. }
      assert (Ej : qnat (p1 - S j) == qnat p1 - qnat j - 1). { unfold qnat. rewrite Nat2Z.inj_sub by (unfold j; lia). rewrite Nat2Z.inj_succ. unfold Z.sub, Z.succ. rewrite inject_Z_plus, inject_Z_opp, inject_Z_plus. change (inject_Z 1) with 1. ring. }
      rewrite Ek, Ej. field. lra.
Qed.

(** ---- probabilities of sums ---- *)
Lemma pos_proper xp n v v' : v == v' -> prob_of_sum xp n v == prob_of_sum xp n v'.
Proof.
  revert v v'. induction n as [|n IH]; intros v v' E; cbn [prob_of_sum].
  - destruct (Qeqb_spec v 0), (Qeqb_spec v' 0); try reflexivity; exfalso; lra.
  - apply sumF_ext. intros e _. rewrite (IH (v - fst e) (v' - fst e)); [reflexivity|]. now rewrite E.
Qed.
(** values without probability do not matter *)
Lemma sumF_split {A} (f : A -> Q) l m : sumF f (l ++ m) == sumF f l + sumF f m.
Proof. apply sumF_app. Qed.
Lemma pos_zeros xp a b n v : (forall e, In e a \/ In e b -> snd e == 0) -> prob_of_sum (a ++ xp ++ b) n v == prob_of_sum xp n v.
Proof.
  intros Z. revert v. induction n as [|n IH]; intros v; cbn [prob_of_sum]; [reflexivity|]. rewrite !sumF_app.
  rewrite (sumF_zero _ a) by (intros e He; rewrite (Z e (or_introl He)); ring). rewrite (sumF_zero _ b) by (intros e He; rewrite (Z e (or_intror He)); ring).
  rewrite Qplus_0_l, Qplus_0_r. apply sumF_ext. intros e _. now rewrite IH.
Qed.
Lemma pos_nonneg xp n v : (forall e, In e xp -> 0 <= snd e) -> 0 <= prob_of_sum xp n v.
Proof.
  intros H. revert v. induction n as [|n IH]; intros v; cbn [prob_of_sum]; [destruct (Qeqb v 0); lra|]. apply sumF_nonneg. intros e He. apply Qmult_le_0_compat; [now apply H|apply IH].
Qed.
(** over equal bins *)
Lemma pos_ext xp xp' n v : Forall2 (fun e e' => fst e == fst e' /\ snd e == snd e') xp xp' -> prob_of_sum xp n v == prob_of_sum xp' n v.
Proof.
  intros F. revert v. induction n as [|n IH]; intros v; cbn [prob_of_sum]; [reflexivity|].
  assert (G : forall l l', Forall2 (fun e e' : Q * Q => fst e == fst e' /\ snd e == snd e') l l' -> sumF (fun e => snd e * prob_of_sum xp n (v - fst e)) l == sumF (fun e => snd e * prob_of_sum xp' n (v - fst e)) l').
  { induction 1 as [|e e' l l' [E1 E2] F' IHF]; [reflexivity|]. rewrite !sumF_cons, IHF, IH, E2. rewrite (pos_proper xp' n (v - fst e) (v - fst e')) by now rewrite E1. reflexivity. }
  now apply G.
Qed.

(** ---- on a grid of 2c+1 bins centred at zero ---- *)
Section Grid.
Variable w : Q.
Variable c : nat.
Variable q : list Q.
Hypothesis w_pos : 0 < w.
Hypothesis len_q : length q = (2 * c + 1)%nat.
Definition grid_x (i : nat) : Q := inject_Z (Z.of_nat i - Z.of_nat c) * w.
Definition grid : list (Q * Q) := map (fun i => (grid_x i, nth i q 0)) (seq 0 (2 * c + 1)).
Definition dist (n : nat) (z : Z) : Q := prob_of_sum grid n (inject_Z z * w).

Lemma sumF_map' {A B} (g : A -> B) (f : B -> Q) l : sumF f (map g l) == sumF (fun a => f (g a)) l.
Proof. induction l as [|a l IH]; cbn [map]; [reflexivity|]. now rewrite !sumF_cons, IH. Qed.
Lemma dist_S n z : dist (S n) z == sumF (fun i => nth i q 0 * dist n (z - (Z.of_nat i - Z.of_nat c))) (seq 0 (2 * c + 1)).
Proof.
  unfold dist. cbn [prob_of_sum]. unfold grid at 2. rewrite sumF_map'. apply sumF_ext. intros i _. cbn [fst snd]. rewrite (pos_proper grid n (inject_Z z * w - grid_x i) (inject_Z (z - (Z.of_nat i - Z.of_nat c)) * w)); [reflexivity|]. unfold grid_x. rewrite (inject_sub z). ring.
Qed.
Lemma dist_0 z : dist 0 z == if (z =? 0)%Z then 1 else 0.
Proof.
  unfold dist. cbn [prob_of_sum]. destruct (Qeqb_spec (inject_Z z * w) 0) as [H|H]; destruct (Z.eqb_spec z 0) as [E|E]; try reflexivity; exfalso.
  - apply Qmult_integral in H. destruct H as [H|H]; [|lra]. unfold Qeq, inject_Z in H. cbn in H. lia.
  - apply H. rewrite E. ring.
Qed.
Lemma dist_1 k : (k <= 2 * c)%nat -> dist 1 (Z.of_nat k - Z.of_nat c) == nth k q 0.
Proof.
  intros Hk. rewrite dist_S. rewrite (sumF_ext _ (fun i => if (i =? k)%nat then nth k q 0 else 0)).
  - assert (G : forall l, NoDup l -> In k l -> sumF (fun i => if (i =? k)%nat then nth k q 0 else 0) l == nth k q 0).
    { clear Hk. induction l as [|a l IH]; intros N I; [destruct I|]. apply NoDup_cons_iff in N as [N1 N2]. rewrite sumF_cons. destruct (Nat.eqb_spec a k) as [->|Ne].
      - rewrite (sumF_ext _ (fun _ => 0)); [rewrite sumF_zero by reflexivity; lra|]. intros i Hi. destruct (Nat.eqb_spec i k) as [->|]; [contradiction|reflexivity].
      - destruct I as [I|I]; [contradiction|]. rewrite (IH N2 I). lra. }
    apply G; [apply seq_NoDup|]. apply in_seq. lia.
  - intros i _. rewrite dist_0. destruct (Z.eqb_spec (Z.of_nat k - Z.of_nat c - (Z.of_nat i - Z.of_nat c)) 0) as [E|E], (Nat.eqb_spec i k) as [E'|E']; try (exfalso; lia); [subst; ring|ring].
Qed.

(** the row of [n] samples, on the same bins *)
Fixpoint row (n : nat) : list Q := match n with O => [] | S O => q | S m => convolve_same q (row m) end.
Lemma length_row n : (0 < n)%nat -> length (row n) = (2 * c + 1)%nat.
Proof. intros H. destruct n as [|[|n]]; [lia|exact len_q|]. cbn [row]. unfold convolve_same. now rewrite map_length, seq_length. Qed.
Lemma row_S n k : (0 < n)%nat -> (k <= 2 * c)%nat ->
  nth k (row (S n)) 0 == sumF (fun i => if (i <=? k + c)%nat then nth i q 0 * nth (k + c - i) (row n) 0 else 0) (seq 0 (2 * c + 1)).
Proof.
  intros Hn Hk. destruct n as [|n]; [lia|]. change (row (S (S n))) with (convolve_same q (row (S n))). unfold convolve_same. rewrite (length_row (S n)) by lia. replace ((2 * c + 1 - 1) / 2)%nat with c by (replace (2 * c + 1 - 1)%nat with (c * 2)%nat by lia; now rewrite Nat.div_mul).
  rewrite (nth_indep _ 0 ((fun k => conv_at q (row (S n)) (k + c)) 0%nat)) by (rewrite map_length, seq_length, len_q; lia). rewrite (map_nth (fun k => conv_at q (row (S n)) (k + c))), seq_nth by (rewrite len_q; lia). cbn [plus]. unfold conv_at. rewrite len_q. reflexivity.
Qed.

(** never more than the probability *)
Lemma row_le n k : (forall i, 0 <= nth i q 0) -> (0 < n)%nat -> (k <= 2 * c)%nat -> 0 <= nth k (row n) 0 /\ nth k (row n) 0 <= dist n (Z.of_nat k - Z.of_nat c).
Proof.
  intros Hq. revert k. induction n as [|n IH]; intros k Hn Hk; [lia|]. destruct n as [|n].
  - change (row 1) with q. rewrite dist_1 by assumption. split; [apply Hq|lra].
  - rewrite row_S by lia. rewrite dist_S.
    assert (Nd : forall z, 0 <= dist (S n) z) by (intros z; apply pos_nonneg; unfold grid; intros e He; apply in_map_iff in He as (i & <- & _); apply Hq).
    split.
    + apply sumF_nonneg. intros i _. destruct (Nat.leb_spec i (k + c)); [|lra]. apply Qmult_le_0_compat; [apply Hq|]. destruct (Nat.le_gt_cases (k + c - i) (2 * c)) as [Hb|Hb]; [apply IH; lia|]. rewrite nth_overflow; [lra|]. rewrite length_row by lia. lia.
    + apply sumF_le. intros i _. destruct (Nat.leb_spec i (k + c)); [|apply Qmult_le_0_compat; [apply Hq|apply Nd]]. rewrite !(Qmult_comm (nth i q 0)). apply Qmult_le_compat_r; [|apply Hq]. destruct (Nat.le_gt_cases (k + c - i) (2 * c)) as [Hb|Hb].
      * replace (Z.of_nat k - Z.of_nat c - (Z.of_nat i - Z.of_nat c))%Z with (Z.of_nat (k + c - i) - Z.of_nat c)%Z by lia. apply IH; lia.
      * rewrite nth_overflow; [apply Nd|]. rewrite length_row by lia. lia.
Qed.

(** with samples close to zero nothing is lost *)
Variable s : nat.
Hypothesis near : forall i, ~ nth i q 0 == 0 -> (Z.abs (Z.of_nat i - Z.of_nat c) <= Z.of_nat s)%Z.
Lemma dist_far n z : (Z.of_nat (n * s) < Z.abs z)%Z -> dist n z == 0.
Proof using near w_pos len_q.
  revert z. induction n as [|n IH]; intros z Hz; [rewrite dist_0; destruct (Z.eqb_spec z 0); [lia|reflexivity]|]. rewrite dist_S. rewrite (sumF_ext _ (fun _ => 0)); [now apply sumF_zero|]. intros i _. destruct (Qeq_dec (nth i q 0) 0) as [E|E]; [rewrite E; ring|]. pose proof (near i E). rewrite IH by lia. ring.
Qed.
Lemma row_dist n k : (0 < n)%nat -> (n * s <= c)%nat -> (k <= 2 * c)%nat -> nth k (row n) 0 == dist n (Z.of_nat k - Z.of_nat c).
Proof using near w_pos len_q.
  revert k. induction n as [|n IH]; intros k Hn Hs Hk; [lia|]. destruct n as [|n]; [now rewrite dist_1|]. rewrite row_S by lia. rewrite dist_S. apply sumF_ext. intros i _. destruct (Nat.leb_spec i (k + c)) as [Hi|Hi].
  - destruct (Nat.le_gt_cases (k + c - i) (2 * c)) as [Hb|Hb].
    + rewrite IH by lia. replace (Z.of_nat k - Z.of_nat c - (Z.of_nat i - Z.of_nat c))%Z with (Z.of_nat (k + c - i) - Z.of_nat c)%Z by lia. reflexivity.
    + rewrite (nth_overflow (row (S n))) by (rewrite length_row; lia). rewrite dist_far by lia. ring.
  - rewrite dist_far by lia. ring.
Qed.

(** sums over windows of the integers *)
Definition window (f : Z -> Q) (lo : Z) (n : nat) : Q := sumF (fun j => f (lo + Z.of_nat j)%Z) (seq 0 n).
Lemma window_app f lo a b : window f lo (a + b) == window f lo a + window f (lo + Z.of_nat a) b.
Proof.
  unfold window. rewrite seq_app, sumF_app. cbn [plus]. apply Qplus_inj_l. revert lo. assert (G : forall l lo, sumF (fun j => f (lo + Z.of_nat j)%Z) (map (fun j => j + a)%nat l) == sumF (fun j => f (lo + Z.of_nat a + Z.of_nat j)%Z) l).
  { induction l as [|x l IH]; intros lo; cbn [map]; [reflexivity|]. rewrite !sumF_cons, IH. replace (lo + Z.of_nat (x + a))%Z with (lo + Z.of_nat a + Z.of_nat x)%Z by lia. reflexivity. }
  intros lo. rewrite <- G. rewrite <- (Nat.add_0_l a) at 1. assert (E : forall st n, seq (st + a) n = map (fun j => j + a)%nat (seq st n)) by (intros st n; revert st; induction n as [|n IHn]; intros st; cbn; [reflexivity|]; f_equal; apply (IHn (S st))). rewrite E. reflexivity.
Qed.
Lemma window_zero f lo n : (forall z, (lo <= z < lo + Z.of_nat n)%Z -> f z == 0) -> window f lo n == 0.
Proof. intros H. unfold window. rewrite (sumF_ext _ (fun _ => 0)); [now apply sumF_zero|]. intros j Hj. apply in_seq in Hj. apply H. lia. Qed.
Lemma window_cover f a lo n : (forall z, (Z.of_nat a < Z.abs z)%Z -> f z == 0) -> (lo <= - Z.of_nat a)%Z -> (Z.of_nat a < lo + Z.of_nat n)%Z ->
  window f lo n == window f (- Z.of_nat a) (2 * a + 1).
Proof.
  intros Hf H1 H2. set (u := Z.to_nat (- Z.of_nat a - lo)). set (v := (n - u - (2 * a + 1))%nat). replace n with (u + ((2 * a + 1) + v))%nat by lia. rewrite !window_app. rewrite (window_zero f lo u) by (intros z Hz; apply Hf; lia). replace (lo + Z.of_nat u)%Z with (- Z.of_nat a)%Z by lia. rewrite (window_zero f _ v); [lra|]. intros z Hz. apply Hf. lia.
Qed.
(** everything the samples can reach *)
Definition total (n : nat) : Q := window (dist n) (- Z.of_nat c) (2 * c + 1).
Definition moment (n : nat) : Q := window (fun z => inject_Z z * dist n z) (- Z.of_nat c) (2 * c + 1).
Lemma window_ext f g lo n : (forall z, f z == g z) -> window f lo n == window g lo n.
Proof. intros H. unfold window. apply sumF_ext. intros. apply H. Qed.
Lemma shift_window f i n : (forall z, (Z.of_nat (n * s) < Z.abs z)%Z -> f z == 0) -> (S n * s <= c)%nat -> ~ nth i q 0 == 0 ->
  window (fun z => f (z - (Z.of_nat i - Z.of_nat c))%Z) (- Z.of_nat c) (2 * c + 1) == window f (- Z.of_nat c) (2 * c + 1).
Proof using near w_pos len_q.
  intros Hf Hs Hi. pose proof (near i Hi). rewrite (window_cover f (n * s)) by (try assumption; lia).
  assert (E : window (fun z => f (z - (Z.of_nat i - Z.of_nat c))%Z) (- Z.of_nat c) (2 * c + 1) == window f (- Z.of_nat c - (Z.of_nat i - Z.of_nat c)) (2 * c + 1)).
  { unfold window. apply sumF_ext. intros j _. replace (- Z.of_nat c + Z.of_nat j - (Z.of_nat i - Z.of_nat c))%Z with (- Z.of_nat c - (Z.of_nat i - Z.of_nat c) + Z.of_nat j)%Z by lia. reflexivity. }
  rewrite E. apply window_cover; [assumption|lia|lia].
Qed.
Lemma total_0 : total 0 == 1.
Proof using near w_pos len_q. unfold total. rewrite (window_cover _ 0); [|intros z Hz; rewrite dist_0; destruct (Z.eqb_spec z 0); [lia|reflexivity]|lia|lia]. unfold window. cbn [Nat.mul Nat.add seq]. rewrite sumF_cons. change (sumF _ []) with 0. rewrite dist_0. cbn. lra. Qed.
Lemma window_plus f g lo n : window (fun z => f z + g z) lo n == window f lo n + window g lo n.
Proof. unfold window. apply sumF_plus. Qed.
Lemma window_sum (f : nat -> Z -> Q) l lo n : window (fun z => sumF (fun i => f i z) l) lo n == sumF (fun i => window (f i) lo n) l.
Proof. unfold window. apply (sumF_swap (fun j i => f i (lo + Z.of_nat j)%Z)). Qed.
Lemma window_scale k f lo n : window (fun z => k * f z) lo n == k * window f lo n.
Proof. unfold window. apply (sumF_scale (fun j => f (lo + Z.of_nat j)%Z) k). Qed.
Lemma total_S n : (S n * s <= c)%nat -> total (S n) == sumF (fun i => nth i q 0) (seq 0 (2 * c + 1)) * total n.
Proof using near w_pos len_q.
  intros Hs. unfold total. rewrite (window_ext _ (fun z => sumF (fun i => nth i q 0 * dist n (z - (Z.of_nat i - Z.of_nat c))) (seq 0 (2 * c + 1)))) by (intros z; apply dist_S). rewrite window_sum. rewrite Qmult_comm. rewrite <- sumF_scale. apply sumF_ext. intros i _. rewrite window_scale. destruct (Qeq_dec (nth i q 0) 0) as [E|E]; [rewrite E; ring|]. rewrite (shift_window (dist n) i n); [ring|apply dist_far|assumption|assumption].
Qed.
Lemma moment_S n : (S n * s <= c)%nat -> moment (S n) == sumF (fun i => inject_Z (Z.of_nat i - Z.of_nat c) * nth i q 0) (seq 0 (2 * c + 1)) * total n + sumF (fun i => nth i q 0) (seq 0 (2 * c + 1)) * moment n.
Proof using near w_pos len_q.
  intros Hs. unfold moment. rewrite (window_ext _ (fun z => sumF (fun i => nth i q 0 * (inject_Z (Z.of_nat i - Z.of_nat c) * dist n (z - (Z.of_nat i - Z.of_nat c)) + inject_Z (z - (Z.of_nat i - Z.of_nat c)) * dist n (z - (Z.of_nat i - Z.of_nat c)))) (seq 0 (2 * c + 1)))).
  2: { intros z. rewrite dist_S, <- sumF_scale. apply sumF_ext. intros i _. rewrite (inject_sub z). ring. }
  rewrite window_sum. rewrite !(Qmult_comm (sumF _ _)). rewrite <- !sumF_scale, <- sumF_plus. apply sumF_ext. intros i _. rewrite window_scale, window_plus, window_scale. destruct (Qeq_dec (nth i q 0) 0) as [E|E]; [rewrite E; ring|]. rewrite (shift_window (dist n) i n) by (try assumption; apply dist_far). rewrite (shift_window (fun z => inject_Z z * dist n z) i n); [|intros z Hz; rewrite dist_far by assumption; ring|assumption|assumption]. unfold total. ring.
Qed.
End Grid.
