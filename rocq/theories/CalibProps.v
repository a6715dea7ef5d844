(** C54: baselines and calibration of the waveforms *)
From Verif Require Import Base Arrays PeaksModel WfmModel WfmProps CalibModel CalibSpec.
Local Open Scope nat_scope.

Lemma per_row_ok {A B C} (f : A -> B -> C) rows col : length rows = length col -> per_row f rows col = Ok (map2 f rows col).
Proof. intros H. unfold per_row. now rewrite (proj2 (Nat.eqb_eq _ _) H). Qed.
Lemma per_row_bad {A B C} (f : A -> B -> C) rows col : length rows <> length col -> exists e, per_row f rows col = Err e.
Proof. intros H. unfold per_row. rewrite (proj2 (Nat.eqb_neq _ _) H). destruct (_ || _); eauto. Qed.

(** masking: the waveforms of the inactive sensors become zeros, the others do not change *)
Theorem C54_mask_sensors wfs active :
  length wfs = length active -> Forall (fun a => a = 0%Z \/ a = 1%Z) active ->
  exists out, mask_sensors wfs active = Ok out /\ length out = length wfs /\
    forall i, i < length wfs -> length (nth i out []) = length (nth i wfs []) /\
      forall k, k < length (nth i wfs []) -> (nth k (nth i out []) 0 == if (nth i active 0 =? 0)%Z then 0 else nth k (nth i wfs []) 0)%Q.
Proof.
  intros H Ha. unfold mask_sensors. rewrite per_row_ok by assumption. eexists. split; [reflexivity|]. split; [now rewrite length_map2_eq|]. intros i Hi.
  rewrite (nth_map2 _ _ _ _ [] 0%Z []) by lia. split; [apply map_length|]. intros k Hk. rewrite (nth_indep _ 0%Q (0 * zq (nth i active 0%Z))%Q) by (now rewrite map_length). rewrite map_nth with (f := fun x => (x * zq (nth i active 0%Z))%Q).
  rewrite Forall_forall in Ha. destruct (Ha (nth i active 0%Z)) as [->| ->]; [apply nth_In; lia|..]; cbn; unfold zq, inject_Z; ring.
Qed.
Print Assumptions C54_mask_sensors.

(** calibration: the samples of a sensor with a positive gain are divided by it, those of the others become zero *)
Theorem C54_calibrate wfs gains :
  length wfs = length gains ->
  exists out, calibrate_wfs wfs gains = Ok out /\ length out = length wfs /\
    forall i, i < length wfs -> length (nth i out []) = length (nth i wfs []) /\
      forall k, k < length (nth i wfs []) ->
        (0 < nth i gains 0 -> nth k (nth i out []) 0 * nth i gains 0 == nth k (nth i wfs []) 0)%Q /\
        (nth i gains 0 <= 0 -> nth k (nth i out []) 0 == 0)%Q.
Proof.
  intros H. unfold calibrate_wfs. rewrite per_row_ok by assumption. eexists. split; [reflexivity|]. split; [now rewrite length_map2_eq|]. intros i Hi.
  rewrite (nth_map2 _ _ _ _ [] 0%Q []) by lia. split; [apply map_length|]. intros k Hk. set (g := nth i gains 0%Q). set (wf := nth i wfs []) in *.
  assert (E : nth k (map (fun x => if Qltb 0 g then (x / g)%Q else 0%Q) wf) 0%Q = if Qltb 0 g then (nth k wf 0 / g)%Q else 0%Q).
  { rewrite (nth_indep _ 0%Q ((fun x => if Qltb 0 g then (x / g)%Q else 0%Q) 0%Q)) by (now rewrite map_length). now rewrite map_nth with (f := fun x => if Qltb 0 g then (x / g)%Q else 0%Q). }
  rewrite E. destruct (Qltb_spec 0 g); split; intros Hg; try reflexivity.
  - field. intros K. rewrite K in Hg. revert Hg. apply Qlt_irrefl.
  - exfalso. apply (Qlt_irrefl 0). now apply Qlt_le_trans with g.
  - exfalso. apply (Qlt_irrefl 0). now apply Qlt_le_trans with g.
Qed.
Print Assumptions C54_calibrate.
Theorem C54_wrong_number_of_gains wfs gains : length wfs <> length gains -> exists e, calibrate_wfs wfs gains = Err e.
Proof. apply per_row_bad. Qed.
Print Assumptions C54_wrong_number_of_gains.

Lemma occurs_count x l : occurs x l = count_occ Z.eq_dec l x.
Proof. unfold occurs. induction l as [|a l IH]; [reflexivity|]. cbn [filter count_occ]. destruct (Z.eqb_spec x a), (Z.eq_dec a x); try congruence; cbn; congruence. Qed.
Lemma maxZ_ge l x : In x l -> (x <= maxZ l)%Z.
Proof. unfold maxZ. induction l as [|a l IH]; [easy|]. cbn. intros [->|H]; [lia|]. specialize (IH H). lia. Qed.

Lemma fold_mode (f : Z -> nat) l b0 :
  let b := fold_left (fun best v => if f best <? f v then v else best) l b0 in
  (forall x, In x (b0 :: l) -> f x <= f b) /\ In b (b0 :: l) /\
  (StronglySorted Z.lt (b0 :: l) -> forall x, In x (b0 :: l) -> f x = f b -> (b <= x)%Z).
Proof.
  revert b0. induction l as [|v l IH]; intros b0; cbn zeta.
  - cbn. split; [intros x [->|[]]; lia|]. split; [now left|]. intros _ x [->|[]] _; lia.
  - cbn [fold_left]. destruct (Nat.ltb_spec (f b0) (f v)) as [H|H].
    + destruct (IH v) as (I1 & I2 & I3). split; [|split].
      * intros x [->|Hx]; [|now apply I1]. specialize (I1 v (or_introl eq_refl)). lia.
      * right. exact I2.
      * intros S x Hx E. apply StronglySorted_inv in S. destruct S as [S _]. destruct Hx as [->|Hx]; [|now apply I3]. specialize (I1 v (or_introl eq_refl)). lia.
    + destruct (IH b0) as (I1 & I2 & I3). split; [|split].
      * intros x [->|[->|Hx]]; [apply I1; now left|specialize (I1 b0 (or_introl eq_refl)); lia|apply I1; now right].
      * destruct I2 as [E|I2]; [now left|right; now right].
      * intros S x Hx E. pose proof (StronglySorted_inv S) as [S1 S2]. pose proof (StronglySorted_inv S1) as [S3 _]. inversion S2 as [|? ? S4 S5]; subst.
        assert (S6 : StronglySorted Z.lt (b0 :: l)) by (constructor; assumption). destruct Hx as [->|[->|Hx]]; [apply I3; [assumption|now left|assumption]| |apply I3; [assumption|now right|assumption]].
        assert (f b0 = f (fold_left (fun best v => if f best <? f v then v else best) l b0)) by (specialize (I1 b0 (or_introl eq_refl)); lia). specialize (I3 S6 b0 (or_introl eq_refl) H0). lia.
Qed.
Lemma seq_sorted_Z a n : StronglySorted Z.lt (map Z.of_nat (seq a n)).
Proof. revert a. induction n as [|n IH]; intros a; [constructor|]. cbn. constructor; [apply IH|]. apply Forall_forall. intros x Hx. apply in_map_iff in Hx. destruct Hx as (k & <- & Hk). apply in_seq in Hk. lia. Qed.

Lemma mode_spec wf : is_baseline BlsMode wf (mode wf).
Proof.
  unfold is_baseline, mode. set (p := filter (fun x => (0 <? x)%Z) wf). assert (Hp : forall x, In x p -> (0 < x)%Z) by (intros x Hx; unfold p in Hx; apply filter_In in Hx; lia). clearbody p.
  replace (Z.to_nat (maxZ p) + 1) with (S (Z.to_nat (maxZ p))) by lia. cbn [seq map fold_left]. change (Z.of_nat 0) with 0%Z. rewrite Nat.ltb_irrefl.
  set (m := fold_left _ _ 0%Z). destruct (fold_mode (fun x => occurs x p) (map Z.of_nat (seq 1 (Z.to_nat (maxZ p)))) 0) as (F1 & F2 & F3). fold m in F1, F2, F3.
  specialize (F3 (seq_sorted_Z 0 (S (Z.to_nat (maxZ p))))).
  assert (Hin : forall x, In x p -> In x (0%Z :: map Z.of_nat (seq 1 (Z.to_nat (maxZ p))))).
  { intros x Hx. right. specialize (Hp x Hx). pose proof (maxZ_ge p x Hx). apply in_map_iff. exists (Z.to_nat x). split; [lia|]. apply in_seq. lia. }
  destruct p as [|a p]; [left; split; [reflexivity|]|right; exists m; split; [reflexivity|]].
  - reflexivity.
  - set (q := a :: p) in *. split.
    + assert (Hm : 0 < occurs m q). { apply Nat.lt_le_trans with (occurs a q); [rewrite occurs_count; unfold q; cbn; destruct (Z.eq_dec a a); [lia|easy]|]. apply F1, Hin. now left. }
      rewrite occurs_count in Hm. now apply (count_occ_In Z.eq_dec).
    + intros x Hx. rewrite <- !occurs_count. split; [apply F1; now apply Hin|intros E; apply F3; [now apply Hin|assumption]].
Qed.

Lemma scipy_mode_spec wf : is_baseline BlsScipyMode wf (scipy_mode wf).
Proof.
  unfold is_baseline, scipy_mode. destruct wf as [|x0 l]; [now left|right]. set (wf := x0 :: l). eexists. split; [reflexivity|].
  assert (G : forall (f : Z -> nat) l b, let m := fold_left (fun best v => if (f best <? f v) || ((f best =? f v) && (v <? best)%Z) then v else best) l b in
    In m (b :: l) /\ forall x, In x (b :: l) -> f x <= f m /\ (f x = f m -> (m <= x)%Z)).
  { clear. intros f. induction l as [|v l IH]; intros b; cbn zeta; [cbn; split; [now left|intros x [->|[]]; lia]|].
    cbn [fold_left]. destruct ((f b <? f v) || _) eqn:E.
    - destruct (IH v) as [I1 I2]. split; [now right|]. intros x [->|Hx]; [|now apply I2]. specialize (I2 v (or_introl eq_refl)). destruct I2 as [I2 I3].
      apply Bool.orb_true_iff in E. destruct E as [E|E]; [apply Nat.ltb_lt in E; lia|]. apply andb_prop in E. destruct E as [E1 E2]. apply Nat.eqb_eq in E1. apply Z.ltb_lt in E2. split; [lia|]. intros E. specialize (I3 ltac:(lia)). lia.
    - destruct (IH b) as [I1 I2]. split; [destruct I1 as [I1|I1]; [now left|right; now right]|]. intros x [->|[->|Hx]]; [apply I2; now left| |apply I2; now right]. specialize (I2 b (or_introl eq_refl)). destruct I2 as [I2 I3].
      apply Bool.orb_false_iff in E. destruct E as [E1 E2]. apply Nat.ltb_ge in E1. apply Bool.andb_false_iff in E2. split; [lia|]. intros E. destruct E2 as [E2|E2]; [apply Nat.eqb_neq in E2; lia|apply Z.ltb_ge in E2; specialize (I3 ltac:(lia)); lia]. }
  destruct (G (fun x => occurs x wf) l x0) as [G1 G2]. split; [exact G1|]. intros x Hx. rewrite <- !occurs_count. apply G2, Hx.
Qed.

Lemma baseline_spec m wf b : baseline m wf = Ok b -> is_baseline m wf b.
Proof.
  destruct m; intros H; try discriminate; injection H as <-.
  - unfold is_baseline, mean0, nonzero. change inject_Z with zq. destruct (map zq (filter (fun x => negb (x =? 0)%Z) wf)) as [|a l]; [left; split; reflexivity|right]. split; [discriminate|]. unfold meanQ. rewrite Qmult_comm. unfold zq. apply Qmult_div_r. intros K. change (inject_Z (Z.of_nat (length (a :: l))) == inject_Z 0)%Q in K. pose proof (proj1 (inject_Z_injective _ _) K) as K2. cbn [length] in K2. lia.
  - unfold is_baseline, median0, nonzero. change inject_Z with zq. destruct (map zq (filter (fun x => negb (x =? 0)%Z) wf)) as [|a l]; [left; split; reflexivity|right]. split; [discriminate|]. exists (sortQ (a :: l)). split; [symmetry; apply sortQ_perm|]. split; [apply sortQ_sorted|]. rewrite (Permutation_length (sortQ_perm (a :: l))). reflexivity.
  - apply mode_spec.
  - apply scipy_mode_spec.
Qed.

(** the baseline is subtracted from the samples that are not zero; those that are zero do not change *)
Theorem C54_subtract_baseline m wfs :
  m <> BlsOther ->
  exists out, subtract_baseline m wfs = Ok out /\
    Forall2 (fun wf o => exists b, is_baseline m wf b /\ Forall2 (fun x y => y = if (x =? 0)%Z then 0%Q else (inject_Z x - b)%Q) wf o) wfs out.
Proof.
  intros Hm. assert (G : exists out, rmap (fun wf => rbind (baseline m wf) (fun b => Ok (map (fun x => if (x =? 0)%Z then 0%Q else (zq x - b)%Q) wf))) wfs = Ok out /\
    Forall2 (fun wf o => exists b, is_baseline m wf b /\ Forall2 (fun x y => y = if (x =? 0)%Z then 0%Q else (inject_Z x - b)%Q) wf o) wfs out).
  { induction wfs as [|wf wfs IH]; [exists []; split; [reflexivity|constructor]|]. destruct IH as (out & E & F). assert (Hb : exists b, baseline m wf = Ok b) by (destruct m; try easy; eexists; reflexivity). destruct Hb as (b & Hb).
    cbn [rmap]. rewrite Hb. cbn [rbind]. rewrite E. eexists. split; [reflexivity|]. constructor; [|assumption]. exists b. split; [now apply baseline_spec|]. clear. induction wf; constructor; [reflexivity|assumption]. }
  destruct G as (out & E & F). exists out. split; [|exact F]. destruct m; try easy; exact E.
Qed.
Print Assumptions C54_subtract_baseline.
Theorem C54_unknown_baseline wfs : subtract_baseline BlsOther wfs = Err TypeError.
Proof. reflexivity. Qed.
Print Assumptions C54_unknown_baseline.

(** SiPMs: both steps *)
Theorem C54_calibrate_sipms m wfs gains :
  m <> BlsOther -> length wfs = length gains ->
  exists out bs, calibrate_sipms m wfs gains = Ok out /\ length out = length wfs /\ Forall2 (is_baseline m) wfs bs /\
    forall i k, i < length wfs -> k < length (nth i wfs []) ->
      let x := nth k (nth i wfs []) 0%Z in let y := nth k (nth i out []) 0%Q in let g := nth i gains 0%Q in
      (x = 0%Z \/ g <= 0 -> y == 0)%Q /\ (x <> 0%Z -> 0 < g -> y * g == inject_Z x - nth i bs 0)%Q.
Proof.
  intros Hm Hl. destruct (C54_subtract_baseline m wfs Hm) as (bls & E & F). assert (Lb : length bls = length wfs) by (symmetry; now apply (Forall2_len _ _ _ F)).
  destruct (C54_calibrate bls gains ltac:(congruence)) as (out & E2 & L2 & H2). unfold calibrate_sipms. rewrite E. cbn [rbind].
  assert (G : exists bs, Forall2 (is_baseline m) wfs bs /\ forall i, i < length wfs -> Forall2 (fun x y => y = if (x =? 0)%Z then 0%Q else (inject_Z x - nth i bs 0)%Q) (nth i wfs []) (nth i bls [])).
  { clear -F. induction F as [|wf o wfs bls (b & Hb & Ho) F IH]; [exists []; split; [constructor|cbn; lia]|]. destruct IH as (bs & I1 & I2). exists (b :: bs). split; [now constructor|]. intros [|i] Hi; cbn in *; [assumption|apply I2; lia]. }
  destruct G as (bs & G1 & G2). exists out, bs. split; [assumption|]. split; [congruence|]. split; [assumption|]. intros i k Hi Hk. cbn zeta. specialize (G2 i Hi).
  assert (Lk : length (nth i bls []) = length (nth i wfs [])) by (symmetry; now apply (Forall2_len _ _ _ G2)).
  assert (Ek : nth k (nth i bls []) 0%Q = if (nth k (nth i wfs []) 0 =? 0)%Z then 0%Q else (inject_Z (nth k (nth i wfs []) 0%Z) - nth i bs 0)%Q).
  { clear -G2 Hk. revert k Hk. induction G2 as [|x y l m E F IH]; intros [|k] Hk; cbn in Hk; try lia; [exact E|]. cbn. apply IH. lia. }
  destruct (H2 i ltac:(lia)) as [_ H3]. destruct (H3 k ltac:(lia)) as [H4 H5]. rewrite Ek in H4. split.
  - intros [Hx|Hg]; [|now apply H5]. destruct (Qlt_le_dec 0 (nth i gains 0%Q)) as [Hg|Hg]; [|now apply H5]. specialize (H4 Hg). rewrite Hx in H4. cbn in H4.
    destruct (Qmult_integral _ _ H4) as [K|K]; [assumption|]. rewrite K in Hg. exfalso. revert Hg. apply Qlt_irrefl.
  - intros Hx Hg. specialize (H4 Hg). destruct (Z.eqb_spec (nth k (nth i wfs []) 0%Z) 0); [easy|]. exact H4.
Qed.
Print Assumptions C54_calibrate_sipms.

Lemma sum_reversed m (f : nat -> Q) : (sumF f (seq 0 m) == sumF (fun i => f (m - 1 - i)%nat) (seq 0 m))%Q.
Proof.
  rewrite <- (sumF_map f (fun i => (m - 1 - i)%nat)). apply sumF_perm. replace (map (fun i => m - 1 - i) (seq 0 m)) with (rev (seq 0 m)); [apply Permutation_rev|].
  apply (list_ext_nth _ _ 0); [now rewrite rev_length, map_length|]. intros i Hi. rewrite rev_length, seq_length in Hi. rewrite rev_nth by (now rewrite seq_length). rewrite seq_length, seq_nth by lia.
  rewrite (nth_indep _ 0 ((fun i => m - 1 - i) 0)) by (now rewrite map_length, seq_length). rewrite map_nth with (f := fun i => m - 1 - i), seq_nth by assumption. lia.
Qed.
Lemma maw_spec n wf k : 0 < n -> k < length wf -> (nth k (maw n wf) 0 == moving_average n wf k)%Q.
Proof.
  intros Hn Hk. unfold maw. rewrite (nth_indep _ 0%Q ((fun k => sumQ (slice (k + 1 - n) (k + 1) wf) / qn n)%Q 0)) by (now rewrite map_length, seq_length).
  rewrite map_nth with (f := fun k => (sumQ (slice (k + 1 - n) (k + 1) wf) / qn n)%Q), seq_nth by assumption. cbn [plus]. unfold moving_average, qn. apply Qdiv_comp; [|reflexivity].
  assert (G : forall m a, a + m <= length wf -> (sumQ (slice a (a + m) wf) == sumF (fun i => nth (a + i) wf 0) (seq 0 m))%Q).
  { clear. induction m as [|m IH]; intros a H.
    - unfold slice. rewrite Nat.add_0_r, Nat.sub_diag. reflexivity.
    - rewrite <- (slice_cat a (a + m) (a + S m)) by lia. rewrite sumQ_app, IH by lia. rewrite seq_S, sumF_app. cbn [plus]. apply Qplus_comp; [reflexivity|].
      assert (E : slice (a + m) (a + S m) wf = [nth (a + m) wf 0%Q]).
      { apply (list_ext_nth _ _ 0%Q); [rewrite length_slice; cbn; lia|]. intros i Hi. rewrite length_slice in Hi. assert (i = 0) by lia. subst i. cbn [nth]. apply nth_error_nth. rewrite nth_error_slice. destruct (Nat.ltb_spec 0 (a + S m - (a + m))); [|lia]. rewrite Nat.add_0_r. apply nth_error_nth'. lia. }
      rewrite E. cbn. rewrite Qplus_0_r. reflexivity. }
  destruct (Nat.le_gt_cases n (k + 1)) as [H|H].
  - replace (k + 1) with (k + 1 - n + n) at 2 by lia. rewrite G by lia.
    rewrite sum_reversed. apply sumF_ext. intros i Hi. apply in_seq in Hi. destruct (Nat.leb_spec i k); [|lia]. replace (k + 1 - n + (n - 1 - i)) with (k - i) by lia. reflexivity.
  - replace (k + 1 - n) with 0 by lia. pose proof (G (k + 1) 0 ltac:(lia)) as G0. cbn [plus] in G0. rewrite G0.
    replace (seq 0 n) with (seq 0 (k + 1) ++ seq (k + 1) (n - (k + 1))) by (symmetry; etransitivity; [|exact (seq_app (k + 1) (n - (k + 1)) 0)]; f_equal; lia). rewrite sumF_app.
    assert (Z0 : (sumF (fun i => if i <=? k then nth (k - i) wf 0 else 0) (seq (k + 1) (n - (k + 1))) == 0)%Q).
    { apply sumF_zero. intros i Hi. apply in_seq in Hi. destruct (Nat.leb_spec i k); [lia|reflexivity]. }
    rewrite Z0, Qplus_0_r.
    rewrite sum_reversed. apply sumF_ext. intros i Hi. apply in_seq in Hi. destruct (Nat.leb_spec i k); [|lia]. replace (k + 1 - 1 - i) with (k - i) by lia. reflexivity.
Qed.

(** PMTs: the calibrated waveforms, those kept only where the sample is [thr] above the moving average, and the sums over the PMTs *)
Theorem C54_calibrate_pmts ns cwfs gains n thr :
  0 < n -> length cwfs = length gains -> Forall (fun wf => length wf = ns) cwfs ->
  exists c cm s sm, calibrate_pmts ns cwfs gains n thr = Ok (c, cm, s, sm) /\ calibrate_wfs cwfs gains = Ok c /\ length cm = length cwfs /\ length s = ns /\ length sm = ns /\
    (forall i k, i < length cwfs -> k < ns ->
       (moving_average n (nth i cwfs []) k + thr <= nth k (nth i cwfs []) 0 -> nth k (nth i cm []) 0 = nth k (nth i c []) 0)%Q /\
       (nth k (nth i cwfs []) 0 < moving_average n (nth i cwfs []) k + thr -> nth k (nth i cm []) 0 = 0)%Q) /\
    (forall k, k < ns -> nth k s 0%Q = sumQ (map (fun wf => nth k wf 0%Q) c) /\ nth k sm 0%Q = sumQ (map (fun wf => nth k wf 0%Q) cm)).
Proof.
  intros Hn Hl Hw. destruct (C54_calibrate cwfs gains Hl) as (c & Ec & Lc & Hc). unfold calibrate_pmts. destruct (Nat.eqb_spec n 0); [lia|]. rewrite Ec. cbn [rbind].
  eexists _, _, _, _. split; [reflexivity|]. split; [reflexivity|]. split; [now rewrite length_map2_eq|]. unfold sum_over_sensors. cbn [cols]. split; [now rewrite map_length, seq_length|]. split; [now rewrite map_length, seq_length|]. split.
  - intros i k Hi Hk. rewrite (nth_map2 _ _ _ _ [] [] []) by lia. rewrite Forall_forall in Hw. assert (Lw : length (nth i cwfs []) = ns) by (apply Hw, nth_In; assumption). destruct (Hc i Hi) as [Lci _].
    assert (Lm : length (maw n (nth i cwfs [])) = ns) by (unfold maw; now rewrite map_length, seq_length).
    assert (Lco : length (combine (nth i cwfs []) (maw n (nth i cwfs []))) = ns) by (rewrite combine_length; lia).
    rewrite (nth_map2 _ _ _ _ (0, 0)%Q 0%Q 0%Q) by lia. rewrite combine_nth by congruence. cbn [fst snd].
    pose proof (maw_spec n (nth i cwfs []) k Hn ltac:(lia)) as Em. destruct (Qleb_spec (nth k (maw n (nth i cwfs [])) 0 + thr) (nth k (nth i cwfs []) 0))%Q as [H|H]; rewrite Em in H; split; intros K; try reflexivity; exfalso; apply (Qlt_irrefl (nth k (nth i cwfs []) 0)%Q); [now apply Qlt_le_trans with (moving_average n (nth i cwfs []) k + thr)%Q|now apply Qlt_le_trans with (moving_average n (nth i cwfs []) k + thr)%Q].
  - intros k Hk. split; match goal with |- nth k (map ?h _) 0%Q = _ => rewrite (nth_indep _ 0%Q (h 0)) by (now rewrite map_length, seq_length); rewrite map_nth, seq_nth by assumption end; reflexivity.
Qed.
Print Assumptions C54_calibrate_pmts.

(** subtraction of the moving average *)
Theorem C54_subtract_maw n cwfs : 0 < n ->
  exists out, pmt_subtract_maw n cwfs = Ok out /\ length out = length cwfs /\
    forall i k, i < length cwfs -> k < length (nth i cwfs []) -> (nth k (nth i out []) 0 == nth k (nth i cwfs []) 0 - moving_average n (nth i cwfs []) k)%Q.
Proof.
  intros Hn. unfold pmt_subtract_maw. destruct (Nat.eqb_spec n 0); [lia|]. eexists. split; [reflexivity|]. split; [apply map_length|]. intros i k Hi Hk.
  rewrite (nth_indep _ [] ((fun wf => map2 Qminus wf (maw n wf)) [])) by (now rewrite map_length). rewrite map_nth with (f := fun wf => map2 Qminus wf (maw n wf)).
  rewrite (nth_map2 _ _ _ _ 0%Q 0%Q 0%Q) by (unfold maw; rewrite ?map_length, ?seq_length; lia). now rewrite maw_spec.
Qed.
Print Assumptions C54_subtract_maw.

Example C54_example : exists out, calibrate_sipms BlsMode [[10; 12; 10; 0; 40]; [5; 7; 5; 5; 9]]%Z [2; 0]%Q = Ok out /\
  Forall2 (Forall2 Qeq) out [[0; 1; 0; 0; 15]; [0; 0; 0; 0; 0]]%Q.
Proof. eexists. split; [reflexivity|]. repeat constructor. Qed.
Example C54_example_pmts : exists c cm s sm, calibrate_pmts 3 [[8; 1; 1]; [0; 6; 0]]%Q [2; 3]%Q 2 3 = Ok (c, cm, s, sm) /\
  Forall2 Qeq s [4; 5 # 2; 1 # 2]%Q /\ Forall2 Qeq sm [4; 2; 0]%Q.
Proof. eexists _, _, _, _. split; [reflexivity|]. split; repeat constructor. Qed.
