(** C46, C47: simulated S2 waveforms *)
From Verif Require Import Base Arrays PeaksModel PeaksProofs BuffersModel BuffersProofs WfmProps DetsimModel DetsimSpec.
Local Open Scope Q_scope.

Lemma length_add_at i v l : length (add_at i v l) = length l.
Proof. apply length_upd. Qed.
Lemma nth_add_at i v l j : (i < length l)%nat -> nth j (add_at i v l) 0 == nth j l 0 + (if Nat.eqb j i then v else 0).
Proof. intros H. unfold add_at. rewrite nth_upd by assumption. destruct (Nat.eqb_spec j i) as [->|N]; lra. Qed.

Lemma fill_length a v n l : length (fold_left (fun sp i => add_at (a + i) v sp) (seq 0 n) l) = length l.
Proof. generalize (seq 0 n). intros m. revert l. induction m as [|i m IH]; intros l; cbn; [reflexivity|]. now rewrite IH, length_add_at. Qed.
Lemma fill_nth a v n l j : (a + n <= length l)%nat ->
  nth j (fold_left (fun sp i => add_at (a + i) v sp) (seq 0 n) l) 0 == nth j l 0 + (if ((a <=? j) && (j <? a + n))%nat then v else 0).
Proof.
  induction n as [|n IH]; intros H.
  - cbn [seq fold_left]. destruct (Nat.leb_spec a j), (Nat.ltb_spec j (a + 0)); cbn [andb]; first [lra|lia].
  - rewrite seq_S, fold_left_app. cbn [fold_left Nat.add]. rewrite nth_add_at by (rewrite fill_length; lia). rewrite IH by lia.
    destruct (Nat.leb_spec a j), (Nat.ltb_spec j (a + n)), (Nat.ltb_spec j (a + S n)), (Nat.eqb_spec j (a + n)); cbn [andb]; first [lra|lia].
Qed.

Section Spread.
Variable hist : list Q.
Variables l r : nat.
Hypothesis pos : (0 < l + r)%nat.
Let step := fun sp h =>
      if Qltb 0 (nth h hist 0) then
        let v := nth h hist 0 / qn (l + r) in
        let aux := (h - l)%nat in
        fold_left (fun sp i => add_at (aux + i) v sp) (seq 0 (l + r)) sp
      else sp.
Lemma step_length sp h : length (step sp h) = length sp.
Proof. unfold step. destruct (Qltb 0 _); [apply fill_length|reflexivity]. Qed.
Lemma steps_length hs sp : length (fold_left step hs sp) = length sp.
Proof. revert sp. induction hs as [|h hs IH]; intros sp; cbn; [reflexivity|]. now rewrite IH, step_length. Qed.
Lemma step_nth sp h j : (l <= h)%nat -> (h + r <= length sp)%nat -> nth j (step sp h) 0 == nth j sp 0 + share hist l r h j.
Proof.
  intros H1 H2. unfold step, share. destruct (Qltb_spec 0 (nth h hist 0)) as [P|P].
  - cbv zeta. rewrite fill_nth by lia. replace (h - l + (l + r))%nat with (h + r)%nat by lia. rewrite (proj2 (Nat.leb_le l h) H1). cbn [andb].
    destruct (_ && _); [|lra]. rewrite Q.max_r by lra. lra.
  - destruct (_ && _); [|lra]. rewrite Q.max_l by lra. unfold Qdiv. lra.
Qed.
Lemma steps_nth hs sp j : (forall h, In h hs -> (l <= h /\ h + r <= length sp)%nat) ->
  nth j (fold_left step hs sp) 0 == nth j sp 0 + sumF (fun h => share hist l r h j) hs.
Proof.
  revert sp. induction hs as [|h hs IH]; intros sp H; cbn [fold_left]; [unfold sumF; cbn; lra|]. rewrite IH, step_nth, sumF_cons; try (apply H; now left); [lra|].
  intros h' Hh. rewrite step_length. apply H. now right.
Qed.
End Spread.

Lemma firstn_nth {A} (m : list A) n j d : (j < n)%nat -> nth j (firstn n m) d = nth j m d.
Proof. revert m j. induction n as [|n IH]; intros [|a m] [|j] H; cbn; try reflexivity; try lia. apply IH. lia. Qed.

(** each bin of the result has the shares of the bins it is spread from *)
Theorem C47_bins hist l r : (0 < l + r)%nat ->
  length (spread_histogram hist l r) = length hist /\
  (forall j, (j < length hist)%nat -> nth j (spread_histogram hist l r) 0 == sumF (fun h => share hist l r h j) (seq 0 (length hist))).
Proof.
  intros P. split.
  - unfold spread_histogram. rewrite firstn_length, (steps_length hist l r), repeat_length. lia.
  - intros j Hj. unfold spread_histogram. rewrite firstn_nth by assumption.
    rewrite (steps_nth hist l r) by (try assumption; intros h Hh; apply in_seq in Hh; rewrite repeat_length; lia).
    assert (Z : nth j (repeat 0 (length hist + (l + r) - 1)) 0 == 0).
    { destruct (nth_in_or_default j (repeat 0 (length hist + (l + r) - 1)) 0) as [I|E]; [|now rewrite E]. apply repeat_spec in I. now rewrite I. }
    rewrite Z. destruct (le_lt_dec l (length hist)) as [L|L].
    + replace (length hist) with (l + (length hist - l))%nat at 2 by lia. rewrite seq_app, sumF_app. cbn [Nat.add].
      rewrite (sumF_zero _ (seq 0 l)); [lra|]. intros h Hh. apply in_seq in Hh. unfold share. destruct (Nat.leb_spec l h); [lia|reflexivity].
    + replace (length hist - l)%nat with 0%nat by lia. rewrite (sumF_zero _ (seq 0 _)); [unfold sumF; cbn; lra|]. intros h Hh. apply in_seq in Hh. unfold share. destruct (Nat.leb_spec l h); [lia|reflexivity].
Qed.

Lemma sum_nth (m : list Q) : sumQ m == sumF (fun j => nth j m 0) (seq 0 (length m)).
Proof.
  assert (G : forall k pre, length pre = k -> sumQ m == sumF (fun j => nth j (pre ++ m) 0) (seq k (length m))).
  { induction m as [|a m IH]; intros k pre H; [reflexivity|]. cbn [length seq sumQ]. rewrite sumF_cons, app_nth2, H, Nat.sub_diag by lia. cbn [nth].
    rewrite (IH (S k) (pre ++ [a])) by (rewrite app_length; cbn; lia). rewrite <- app_assoc. cbn. reflexivity. }
  now apply (G 0%nat []).
Qed.
Lemma sum_interval a b n (v : Q) : (a <= b)%nat -> sumF (fun j => if ((a <=? j) && (j <? b))%nat then v else 0) (seq 0 n) == qn (Nat.min b n - Nat.min a n) * v.
Proof.
  intros H. induction n as [|n IH]; [rewrite !Nat.min_0_r; change (qn (0 - 0)) with 0; unfold sumF; cbn [seq map sumQ]; lra|].
  rewrite seq_S, sumF_app, IH. cbn [Nat.add]. rewrite sumF_cons. unfold sumF. cbn [map sumQ].
  destruct (Nat.leb_spec a n), (Nat.ltb_spec n b); cbn [andb].
  - replace (Nat.min b (S n) - Nat.min a (S n))%nat with (S (Nat.min b n - Nat.min a n)) by lia. unfold qn. rewrite Nat2Z.inj_succ. unfold Z.succ. rewrite inject_Z_plus. change (inject_Z 1) with 1. lra.
  - replace (Nat.min b (S n) - Nat.min a (S n))%nat with (Nat.min b n - Nat.min a n)%nat by lia. lra.
  - replace (Nat.min b (S n) - Nat.min a (S n))%nat with (Nat.min b n - Nat.min a n)%nat by lia. lra.
  - replace (Nat.min b (S n) - Nat.min a (S n))%nat with (Nat.min b n - Nat.min a n)%nat by lia. lra.
Qed.

(** the total of the result: of each bin that is spread, the shares that fall before the end *)
Theorem C47_total hist l r : (0 < l + r)%nat ->
  sumQ (spread_histogram hist l r) ==
  sumF (fun h => if (l <=? h)%nat then positive (nth h hist 0) * (qn (Nat.min (h + r) (length hist) - (h - l)) / qn (l + r)) else 0) (seq 0 (length hist)).
Proof.
  intros P. destruct (C47_bins hist l r P) as [L N]. rewrite sum_nth, L.
  rewrite (sumF_ext _ (fun j => sumF (fun h => share hist l r h j) (seq 0 (length hist)))) by (intros j Hj; apply in_seq in Hj; apply N; lia).
  rewrite sumF_swap. apply sumF_ext. intros h Hh. apply in_seq in Hh. unfold share, positive. destruct (Nat.leb_spec l h) as [H|H]; cbn [andb].
  - rewrite sum_interval by lia. replace (Nat.min (h - l) (length hist)) with (h - l)%nat by lia. unfold Qdiv. ring.
  - apply sumF_zero. reflexivity.
Qed.

(** the content is conserved when no bin is negative, the first [l] bins are empty and the end is not reached *)
Theorem C47_conserved hist l r : (0 < l + r)%nat -> (forall q, In q hist -> 0 <= q) ->
  (forall h, (h < length hist)%nat -> ~ nth h hist 0 == 0 -> (l <= h /\ h + r <= length hist)%nat) ->
  sumQ (spread_histogram hist l r) == sumQ hist.
Proof.
  intros P N C. rewrite C47_total, (sum_nth hist) by assumption. apply sumF_ext. intros h Hh. apply in_seq in Hh.
  assert (0 <= nth h hist 0) by (apply N, nth_In; lia). assert (M : positive (nth h hist 0) == nth h hist 0) by now apply Q.max_r.
  destruct (Qeq_dec (nth h hist 0) 0) as [Z|Z].
  - destruct (Nat.leb l h); rewrite ?M, Z; lra.
  - destruct (C h ltac:(lia) Z) as [C1 C2]. rewrite (proj2 (Nat.leb_le l h) C1). replace (Nat.min (h + r) (length hist) - (h - l))%nat with (l + r)%nat by lia.
    assert (0 < qn (l + r)) by (apply qn_pos; lia). rewrite M. field. lra.
Qed.

(** nothing is created, and no bin is negative *)
Theorem C47_at_most hist l r : (0 < l + r)%nat ->
  (forall q, In q (spread_histogram hist l r) -> 0 <= q) /\ sumQ (spread_histogram hist l r) <= sumF positive hist.
Proof.
  intros P. assert (Q0 : 0 < qn (l + r)) by (apply qn_pos; lia). destruct (C47_bins hist l r P) as [L N]. split.
  - intros q Hq. apply In_nth with (d := 0) in Hq. destruct Hq as (j & Hj & <-). rewrite L in Hj. rewrite N by assumption. apply sumF_nonneg. intros h _. unfold share.
    destruct (_ && _); [|lra]. apply Qle_shift_div_l; [assumption|]. rewrite Qmult_0_l. apply Q.le_max_l.
  - rewrite C47_total by assumption. assert (E : sumF positive hist == sumF (fun h => positive (nth h hist 0)) (seq 0 (length hist))).
    { unfold sumF at 1. rewrite sum_nth, map_length. apply sumF_ext. intros h Hh. apply in_seq in Hh. rewrite (nth_indep _ 0 (positive 0)) by (rewrite map_length; lia). now rewrite map_nth. }
    rewrite E. apply sumF_le. intros h Hh. apply in_seq in Hh. assert (0 <= positive (nth h hist 0)) by apply Q.le_max_l. destruct (Nat.leb_spec l h); [|assumption].
    assert (K : qn (Nat.min (h + r) (length hist) - (h - l)) / qn (l + r) <= 1).
    { apply Qle_shift_div_r; [assumption|]. rewrite Qmult_1_l. apply qn_le. lia. }
    revert H K. generalize (positive (nth h hist 0)). generalize (qn (Nat.min (h + r) (length hist) - (h - l)) / qn (l + r)). intros; nra.
Qed.
Print Assumptions C47_bins.
Print Assumptions C47_total.
Print Assumptions C47_conserved.
Print Assumptions C47_at_most.
