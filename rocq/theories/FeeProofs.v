From Coq Require Import QArith ZArith List Lia Lqa.
From Verif Require Import Base Arrays DbModel DbProps NoiseModel FeeModel FeeSpec.
Import ListNotations.
Local Open Scope Q_scope.

Lemma combined_iff c l u v : combined c l u v <-> length l = length u /\ length l = length v /\ forall i, nth i l 0 == c * nth i u 0 + nth i v 0.
Proof.
  split.
  - induction 1 as [|x y z l u v E H IH]; cbn; [repeat split; intros [|i]; ring|]. destruct IH as (I1 & I2 & I3). repeat split; [lia|lia|]. intros [|i]; [exact E|apply I3].
  - revert u v. induction l as [|x l IH]; intros [|y u] [|z v] (H1 & H2 & H3); try discriminate; constructor; [exact (H3 0%nat)|]. apply IH. cbn in *. repeat split; [lia|lia|]. intros i. exact (H3 (S i)).
Qed.
Lemma combined_len c l u v : combined c l u v -> length l = length u /\ length l = length v.
Proof. intros H. apply combined_iff in H. tauto. Qed.
Lemma nth_map_seq (f : nat -> Q) n i : nth i (map f (seq 0 n)) 0 = if (i <? n)%nat then f i else 0.
Proof. destruct (Nat.ltb_spec i n) as [H|H]; [|apply nth_overflow; rewrite map_length, seq_length; assumption]. rewrite (nth_indep _ 0 (f 0%nat)) by (rewrite map_length, seq_length; assumption). now rewrite map_nth, seq_nth. Qed.
Lemma combined_map_seq c (f g h : nat -> Q) n n' n'' : n = n' -> n = n'' -> (forall i, f i == c * g i + h i) -> combined c (map f (seq 0 n)) (map g (seq 0 n')) (map h (seq 0 n'')).
Proof. intros <- <- H. generalize (seq 0 n). induction l as [|i l IH]; cbn; constructor; [apply H|exact IH]. Qed.
Lemma combined_map c (k : Q) l u v : combined c l u v -> combined c (map (fun x => x * k) l) (map (fun x => x * k) u) (map (fun x => x * k) v).
Proof. induction 1 as [|x y z l u v E H IH]; cbn; constructor; [rewrite E; ring|exact IH]. Qed.
Lemma combined_firstn c n l u v : combined c l u v -> combined c (firstn n l) (firstn n u) (firstn n v).
Proof. intros H. revert n. induction H as [|x y z l u v E H IH]; intros [|n]; cbn; constructor; [exact E|apply IH]. Qed.
Lemma combined_conv c b l u v k : combined c l u v -> conv_at l b k == c * conv_at u b k + conv_at v b k.
Proof.
  intros H. apply combined_iff in H. destruct H as (H1 & H2 & H3). unfold conv_at. rewrite <- H1, <- H2, <- sumF_scale, <- sumF_plus. apply sumF_ext. intros i _. destruct (i <=? k)%nat; [rewrite H3|]; ring.
Qed.
Lemma combined_convolve c b l u v : combined c l u v -> combined c (convolve l b) (convolve u b) (convolve v b).
Proof.
  intros H. destruct (combined_len _ _ _ _ H) as [L1 L2]. pose proof (fun k => combined_conv c b l u v k H) as K. unfold convolve. destruct H as [|x y z l u v E H]; [constructor|]. destruct b as [|b0 b]; [constructor|]. apply combined_map_seq; [cbn in *; lia|cbn in *; lia|]. exact K.
Qed.
Lemma combined_without_end c n l u v : combined c l u v -> combined c (without_end l n) (without_end u n) (without_end v n).
Proof. intros H. destruct (combined_len _ _ _ _ H) as [L1 L2]. unfold without_end. destruct n as [|[|n]]; [now apply combined_firstn|constructor|]. rewrite <- L1, <- L2. now apply combined_firstn. Qed.
Lemma combined_pulse c spe norm l u v : combined c l u v -> combined c (spe_pulse_from_vector spe l norm) (spe_pulse_from_vector spe u norm) (spe_pulse_from_vector spe v norm).
Proof. intros H. unfold spe_pulse_from_vector. now apply combined_convolve, combined_without_end. Qed.
Lemma combined_decimate c s h l u v : combined c l u v -> combined c (decimate s h l) (decimate s h u) (decimate s h v).
Proof.
  intros H. apply combined_iff in H. destruct H as (H1 & H2 & H3). unfold decimate. apply combined_map_seq; [congruence|congruence|]. intros k. unfold fir_at. rewrite <- sumF_scale, <- sumF_plus. apply sumF_ext. intros j _. destruct (Nat.leb j _); [rewrite H3|]; ring.
Qed.
Lemma dot_combined c b l u v : combined c l u v -> dot b l == c * dot b u + dot b v.
Proof. intros H. unfold dot. revert b. induction H as [|x y z l u v E H IH]; intros [|b0 b]; cbn [map2 sumQ]; try ring. rewrite IH, E. ring. Qed.
Lemma combined_lfilter_from c b a l u v xs xu xv ys yu yv : combined c l u v -> combined c xs xu xv -> combined c ys yu yv ->
  combined c (lfilter_from b a xs ys l) (lfilter_from b a xu yu u) (lfilter_from b a xv yv v).
Proof.
  intros H. revert xs xu xv ys yu yv. induction H as [|x y z l u v E H IH]; intros xs xu xv ys yu yv Hx Hy; cbn [lfilter_from]; [constructor|]. assert (Hx' : combined c (x :: xs) (y :: xu) (z :: xv)) by (now constructor).
  assert (E0 : (dot b (x :: xs) - dot (tl a) ys) / hd 1 a == c * ((dot b (y :: xu) - dot (tl a) yu) / hd 1 a) + (dot b (z :: xv) - dot (tl a) yv) / hd 1 a). { rewrite (dot_combined c b _ _ _ Hx'), (dot_combined c (tl a) _ _ _ Hy). unfold Qdiv. ring. }
  constructor; [exact E0|]. apply IH; [exact Hx'|]. constructor; [exact E0|exact Hy].
Qed.
Lemma combined_lfilter c b a l u v : combined c l u v -> combined c (lfilter b a l) (lfilter b a u) (lfilter b a v).
Proof. intros H. apply combined_lfilter_from; [exact H|constructor|constructor]. Qed.
(** adding noise to one of the terms *)
Lemma combined_plus c l u v n n0 : combined c l u v -> length n = length l -> length n0 = length u -> Forall (fun x => x == 0) n0 -> combined c (map2 Qplus l n) (map2 Qplus u n0) (map2 Qplus v n).
Proof. intros H. revert n n0. induction H as [|x y z l u v E H IH]; intros [|a n] [|b n0] H1 H2 Z; try discriminate; cbn; constructor; inversion Z; subst. - rewrite E. rewrite H4. ring. - apply IH; [now injection H1|now injection H2|assumption]. Qed.
Lemma combined_minus c l u v n n0 : combined c l u v -> length n = length l -> length n0 = length u -> Forall (fun x => x == 0) n0 -> combined c (map2 Qminus l n) (map2 Qminus u n0) (map2 Qminus v n).
Proof. intros H. revert n n0. induction H as [|x y z l u v E H IH]; intros [|a n] [|b n0] H1 H2 Z; try discriminate; cbn; constructor; inversion Z; subst. - rewrite E. rewrite H4. ring. - apply IH; [now injection H1|now injection H2|assumption]. Qed.

Lemma length_lfilter_from b a xs ys l : length (lfilter_from b a xs ys l) = length l.
Proof. revert xs ys. induction l as [|x l IH]; intros xs ys; cbn; [reflexivity|now rewrite IH]. Qed.
Lemma length_lfilter b a l : length (lfilter b a l) = length l.
Proof. apply length_lfilter_from. Qed.
Lemma length_convolve a b : (0 < length a)%nat -> (0 < length b)%nat -> length (convolve a b) = (length a + length b - 1)%nat.
Proof. destruct a, b; cbn [length]; intros; try lia. unfold convolve. rewrite map_length, seq_length. reflexivity. Qed.
Lemma length_decimate s h l : length (decimate s h l) = ((length l + s - 1) / s)%nat.
Proof. unfold decimate. now rewrite map_length, seq_length. Qed.
Lemma nth_convolve a b k : (0 < length a)%nat -> (0 < length b)%nat -> (k < length a + length b - 1)%nat -> nth k (convolve a b) 0 = conv_at a b k.
Proof. intros Ha Hb Hk. destruct a as [|a0 a]; [cbn in Ha; lia|]. destruct b as [|b0 b]; [cbn in Hb; lia|]. unfold convolve. rewrite nth_map_seq. destruct (Nat.ltb_spec k (length (a0 :: a) + length (b0 :: b) - 1)); [reflexivity|lia]. Qed.
Lemma nth_firstn {A} n (l : list A) i d : nth i (firstn n l) d = if (i <? n)%nat then nth i l d else d.
Proof. revert n i. induction l as [|a l IH]; intros [|n] [|i]; cbn [firstn nth]; try reflexivity; try (destruct (_ <? _)%nat; reflexivity). change (S i <? S n)%nat with (i <? n)%nat. apply IH. Qed.

(** sum of a convolution *)
Lemma sum_conv a b : (0 < length a)%nat -> (0 < length b)%nat -> sumQ (convolve a b) == sumQ a * sumQ b.
Proof.
  intros Ha Hb. destruct a as [|a0 a]; [cbn in Ha; lia|]. destruct b as [|b0 b]; [cbn in Hb; lia|]. unfold convolve. set (A := a0 :: a) in *. set (B := b0 :: b) in *. clearbody A B.
  assert (SQ : forall (f : nat -> Q) l, sumQ (map f l) == sumF f l) by (intros; reflexivity). rewrite SQ. unfold conv_at. rewrite (sumF_swap (fun k i => if (i <=? k)%nat then nth i A 0 * nth (k - i) B 0 else 0)).
  rewrite (sumF_ext _ (fun i => nth i A 0 * sumQ B)).
  - rewrite sumF_scale_r. apply Qmult_comp; [|reflexivity]. clear. rewrite sumQ_sumF. induction A as [|x A IH]; [reflexivity|]. cbn [length seq]. rewrite !sumF_cons, <- seq_shift. unfold sumF in *. rewrite map_map. cbn [nth]. now rewrite IH.
  - intros i Hi. apply in_seq in Hi. replace (length A + length B - 1)%nat with (i + (length B + (length A - 1 - i)))%nat by lia. rewrite seq_app, sumF_app. cbn [plus]. rewrite (sumF_zero _ (seq 0 i)) by (intros k Hk; apply in_seq in Hk; destruct (Nat.leb_spec i k); [lia|reflexivity]). rewrite seq_app, sumF_app. rewrite (sumF_zero _ (seq (i + length B) _)).
    + assert (E : forall n st, seq (i + st) n = map (fun j => i + j)%nat (seq st n)) by (induction n as [|n IHn]; intros st; cbn; [reflexivity|]; f_equal; rewrite <- IHn; f_equal; lia). rewrite <- (Nat.add_0_r i) at 1. rewrite E. unfold sumF at 1. rewrite map_map. rewrite (map_ext_in _ (fun j => nth i A 0 * nth j B 0)).
      * change (sumQ (map (fun j : nat => nth i A 0 * nth j B 0) (seq 0 (length B)))) with (sumF (fun j : nat => nth i A 0 * nth j B 0) (seq 0 (length B))). rewrite sumF_scale. assert (E2 : sumF (fun j => nth j B 0) (seq 0 (length B)) == sumQ B). { clear. rewrite sumQ_sumF. induction B as [|x B IH]; [reflexivity|]. cbn [length seq]. rewrite !sumF_cons, <- seq_shift. unfold sumF in *. rewrite map_map. cbn [nth]. now rewrite IH. } rewrite E2. ring.
      * intros j _. destruct (Nat.leb_spec i (i + j)); [|lia]. replace (i + j - i)%nat with j by lia. reflexivity.
    + intros k Hk. apply in_seq in Hk. destruct (Nat.leb_spec i k); [|reflexivity]. rewrite (nth_overflow B) by lia. ring.
Qed.

(** ---- causality ---- *)
Lemma agree_conv b a a' t k : agree_before t a a' -> (k < t)%nat -> conv_at a b k == conv_at a' b k.
Proof. intros (L & H) Hk. unfold conv_at. rewrite L. apply sumF_ext. intros i _. destruct (Nat.leb_spec i k); [|reflexivity]. rewrite H by lia. reflexivity. Qed.
Lemma agree_pulse spe norm t a a' : agree_before t a a' -> agree_before t (spe_pulse_from_vector spe a norm) (spe_pulse_from_vector spe a' norm).
Proof.
  intros (L & H). unfold spe_pulse_from_vector. set (b := map _ spe). clearbody b. assert (W : agree_before t (without_end a (length spe)) (without_end a' (length spe))).
  { unfold without_end. assert (F : forall n, agree_before t (firstn n a) (firstn n a')) by (intros n; split; [rewrite !firstn_length; lia|]; intros i Hi; rewrite !nth_firstn; destruct (_ <? _)%nat; [now apply H|reflexivity]). destruct (length spe) as [|[|n]]; [apply F|split; reflexivity|rewrite <- L; apply F]. }
  set (u := without_end a _) in *. set (u' := without_end a' _) in *. clearbody u u'. pose proof W as [L' _]. destruct u as [|x u], u' as [|x' u']; try discriminate; [split; reflexivity|]. destruct b as [|b0 b]; [split; reflexivity|]. split.
  - rewrite !length_convolve by (cbn; lia). congruence.
  - intros i Hi. destruct (Nat.lt_ge_cases i (length (x :: u) + length (b0 :: b) - 1)) as [C|C].
    + rewrite !nth_convolve by (cbn in *; lia). now apply agree_conv with t.
    + rewrite !nth_overflow by (rewrite length_convolve; cbn in *; lia). reflexivity.
Qed.
Lemma agree_decimate s h t k a a' : agree_before t a a' -> (s * (k - 1) + length h / 2 < t \/ k = 0)%nat -> agree_before k (decimate s h a) (decimate s h a').
Proof.
  intros (L & H) Hk. split; [rewrite !length_decimate; congruence|]. intros i Hi. unfold decimate. rewrite L, !nth_map_seq. destruct (_ <? _)%nat; [|reflexivity]. unfold fir_at. apply sumF_ext. intros j _. destruct (Nat.leb j _); [|reflexivity]. rewrite H; [reflexivity|]. assert (s * i <= s * (k - 1))%nat by (apply Nat.mul_le_mono_l; lia). lia.
Qed.
Lemma dot_eq b l l' : Forall2 Qeq l l' -> dot b l == dot b l'.
Proof. unfold dot. intros F. revert b. induction F as [|x y l l' E F IH]; intros [|b0 b]; cbn; try reflexivity. now rewrite E, IH. Qed.
Lemma agree_lfilter_from b a t l l' xs xs' ys ys' : agree_before t l l' -> Forall2 Qeq xs xs' -> Forall2 Qeq ys ys' -> agree_before t (lfilter_from b a xs ys l) (lfilter_from b a xs' ys' l').
Proof.
  revert t l' xs xs' ys ys'. induction l as [|x l IH]; intros t [|x' l'] xs xs' ys ys' (L & H) Fx Fy; try discriminate; cbn [lfilter_from]; [split; reflexivity|]. destruct t as [|t]; [split; [cbn; rewrite !length_lfilter_from; now injection L as ->|lia]|].
  assert (E : x == x') by (apply (H 0%nat); lia). assert (Fx' : Forall2 Qeq (x :: xs) (x' :: xs')) by (now constructor). assert (E0 : (dot b (x :: xs) - dot (tl a) ys) / hd 1 a == (dot b (x' :: xs') - dot (tl a) ys') / hd 1 a) by (now rewrite (dot_eq b _ _ Fx'), (dot_eq (tl a) _ _ Fy)).
  destruct (IH t l' (x :: xs) (x' :: xs') ((dot b (x :: xs) - dot (tl a) ys) / hd 1 a :: ys) ((dot b (x' :: xs') - dot (tl a) ys') / hd 1 a :: ys')) as [I1 I2]; [split; [now injection L|intros i Hi; apply (H (S i)); lia]|assumption|now constructor|].
  split; [cbn; now rewrite I1|]. intros [|i] Hi; [exact E0|]. apply I2. lia.
Qed.
Lemma agree_lfilter b a t l l' : agree_before t l l' -> agree_before t (lfilter b a l) (lfilter b a l').
Proof. intros H. apply agree_lfilter_from; [exact H|constructor|constructor]. Qed.
Lemma nth_map2' (f : Q -> Q -> Q) l m i : nth i (map2 f l m) 0 = match nth_error l i, nth_error m i with Some x, Some y => f x y | _, _ => 0 end.
Proof. revert l m. induction i as [|i IH]; intros [|x l] [|y m]; cbn; try reflexivity; [destruct (nth_error l i); reflexivity|apply IH]. Qed.
Lemma agree_map2 (f : Q -> Q -> Q) t l l' m : (forall x x' y, x == x' -> f x y == f x' y) -> agree_before t l l' -> agree_before t (map2 f l m) (map2 f l' m).
Proof.
  intros Hf (L & H). split; [clear H; revert l' m L; clear; induction l as [|x l IH]; intros [|x' l'] [|y m] L; try discriminate; cbn; [reflexivity|reflexivity|reflexivity|]; f_equal; apply IH; now injection L|].
  intros i Hi. rewrite !nth_map2'. specialize (H i Hi). destruct (nth_error l i) as [x|] eqn:E, (nth_error l' i) as [x'|] eqn:E'.
  - rewrite (nth_error_nth _ _ _ E), (nth_error_nth _ _ _ E') in H. destruct (nth_error m i); [now apply Hf|reflexivity].
  - apply nth_error_None in E'. assert ((i < length l)%nat) by (apply nth_error_Some; congruence). lia.
  - apply nth_error_None in E. assert ((i < length l')%nat) by (apply nth_error_Some; congruence). lia.
  - reflexivity.
Qed.
Lemma agree_map (f : Q -> Q) t l l' : (forall x x', x == x' -> f x == f x') -> agree_before t l l' -> agree_before t (map f l) (map f l').
Proof.
  intros Hf (L & H). split; [rewrite !map_length; exact L|]. intros i Hi. specialize (H i Hi). destruct (Nat.lt_ge_cases i (length l)) as [C|C].
  - rewrite (nth_indep _ 0 (f 0)), (nth_indep (map f l') 0 (f 0)) by (rewrite map_length; lia). rewrite !map_nth. now apply Hf.
  - rewrite !nth_overflow by (rewrite map_length; lia). reflexivity.
Qed.
