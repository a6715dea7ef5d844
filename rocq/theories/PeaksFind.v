(** find_peaks as a whole; the peak objects; threshold slices *)
From Verif Require Import Base PeaksModel PeaksSpec PeaksProofs PeaksMore.
Local Open Scope Q_scope.

Lemma charge_in_const w n a b : (b < n)%nat -> (a <= b)%nat -> charge_in a (b + 1) (repeat w n) == qn (b + 1 - a) * w.
Proof.
  intros Hb Hab. unfold charge_in. rewrite filter_seq_range, repeat_length, Nat.min_l by lia.
  rewrite (sumF_ext _ (fun _ => w)).
  - rewrite sumF_const, seq_length. reflexivity.
  - intros i Hi. apply in_seq in Hi. rewrite (nth_indep _ 0 w) by (rewrite repeat_length; lia). now rewrite nth_repeat.
Qed.

Lemma nth_times w n i : (i < n)%nat -> nth i (map (fun i => qn i * w) (seq 0 n)) 0 = qn i * w.
Proof.
  intros Hi. rewrite (nth_indep _ 0 (qn 0 * w)) by (rewrite map_length, seq_length; lia).
  rewrite (map_nth (fun i => qn i * w) (seq 0 n) 0%nat i). now rewrite seq_nth by lia.
Qed.

Lemma picked_made_of a b n w ccwfs p s pk pmt_ids :
  let times := map (fun i => qn i * w) (seq 0 n) in
  0 < w -> (a <= b)%nat -> (b < n)%nat -> (p < s)%nat ->
  (p = 0%nat \/ 0 < col_sum ccwfs a) ->
  r_ids (p_pmts pk) = pmt_ids ->
  picked a b times (repeat w n) ccwfs p s (p_times pk) (p_widths pk) (r_wfs (p_pmts pk)) ->
  made_of ccwfs w pmt_ids a b pk.
Proof.
  intros times Hw Hab Hb Hp Hpos Hid P. split; [assumption|].
  split; [apply (pk_rtot _ _ _ _ _ _ _ _ _ _ P)|].
  split; [rewrite (pk_wtot _ _ _ _ _ _ _ _ _ _ P); now apply charge_in_const|].
  split.
  - intros E. pose proof (pk_len _ _ _ _ _ _ _ _ _ _ P) as L. rewrite E in L. cbn in L.
    pose proof (cdiv_pos (p + (b + 1 - a)) s). lia.
  - intros t Ht. apply (In_nth _ _ 0) in Ht. destruct Ht as (k & Hk & <-).
    apply (pk_time _ _ _ _ _ _ _ _ _ _ P k Hk).
    + destruct Hpos as [H|H]; [now left|]. destruct k as [|k]; [|right; left; lia].
      right. right. exists a. split; [|assumption]. unfold bin_lo, bin_hi. lia.
    + intros i Hi. unfold bin_lo, bin_hi in Hi. unfold times. rewrite nth_times by lia.
      pose proof (qn_le a i ltac:(lia)). pose proof (qn_le i b ltac:(lia)). split; nra.
Qed.

(** order *)
Lemma SS_app_lt l m : StronglySorted lt (l ++ m) -> forall x y, In x l -> In y m -> (x < y)%nat.
Proof.
  induction l as [|a l IH]; cbn; intros H x y Hx Hy; [easy|]. inversion H; subst.
  destruct Hx as [->|Hx]; [|now apply IH]. rewrite Forall_forall in H3. apply H3. apply in_app_iff. now right.
Qed.
Lemma SS_app_r l m : StronglySorted lt (l ++ m) -> StronglySorted lt m.
Proof. induction l; cbn; auto. intros H; inversion H; auto. Qed.

Definition ordered (gs : list (list nat)) : Prop :=
  forall i j g h, (i < j)%nat -> nth_error gs i = Some g -> nth_error gs j = Some h ->
  forall x y, In x g -> In y h -> (x < y)%nat.

Lemma in_concat_nth {A} (gs : list (list A)) j h y : nth_error gs j = Some h -> In y h -> In y (concat gs).
Proof. intros H Hy. apply in_concat. exists h. split; [|assumption]. eapply nth_error_In; eauto. Qed.

Lemma ordered_concat gs : StronglySorted lt (concat gs) -> ordered gs.
Proof.
  induction gs as [|g gs IH]; intros H i j g' h Hij Hi Hj x y Hx Hy; [destruct i; discriminate|].
  cbn in H. destruct j as [|j]; [lia|]. cbn in Hj. destruct i as [|i].
  - inversion Hi; subst. eapply SS_app_lt; eauto. eapply in_concat_nth; eauto.
  - apply (IH (SS_app_r _ _ H) i j g' h); auto. lia.
Qed.

Lemma ordered_filter p gs : ordered gs -> ordered (filter p gs).
Proof.
  induction gs as [|g gs IH]; intros H; [exact H|].
  assert (IH' : ordered (filter p gs)).
  { apply IH. intros i j g' h Hij Hi Hj. apply (H (S i) (S j)); auto. lia. }
  cbn. destruct (p g); [|assumption].
  intros i j g' h Hij Hi Hj x y Hx Hy. destruct j as [|j]; [lia|]. cbn in Hj. destruct i as [|i].
  - inversion Hi; subst. assert (Hin : In h gs). { apply nth_error_In in Hj. apply filter_In in Hj. tauto. }
    apply In_nth_error in Hin. destruct Hin as (k & Hk). apply (H 0%nat (S k) g' h); auto. lia.
  - apply (IH' i j g' h); auto. lia.
Qed.

Lemma Forall2_impl_in {A B} (R S : A -> B -> Prop) l m :
  (forall a b, In a l -> R a b -> S a b) -> Forall2 R l m -> Forall2 S l m.
Proof.
  intros H F. induction F; constructor.
  - apply H; [now left|assumption].
  - apply IHF. intros; apply H; [now right|assumption].
Qed.

Lemma ends_in g a b : ends g = Ok (a, b) -> In a g /\ In b g.
Proof. intros E. apply ends_spec in E. destruct E as [(t & ->) (u & E)]. split; [now left|]. rewrite E. apply in_app_iff. right. now left. Qed.

Lemma SS_ends g a b : StronglySorted lt g -> ends g = Ok (a, b) -> (a <= b)%nat /\ forall x, In x g -> (a <= x <= b)%nat.
Proof.
  intros H E. pose proof (ends_in _ _ _ E) as [Ia Ib]. apply ends_spec in E. destruct E as [(t & E1) (u & E2)].
  assert (K : forall x, In x g -> (a <= x <= b)%nat).
  { intros x Hx. split.
    - subst g. inversion H; subst. destruct Hx as [->|Hx]; [lia|]. rewrite Forall_forall in H3. specialize (H3 x Hx). lia.
    - subst g. rewrite E2 in *. apply in_app_iff in Hx. destruct Hx as [Hx|[->|[]]]; [|lia].
      pose proof (SS_app_lt _ _ H x b Hx). cbn in H0. specialize (H0 (or_introl eq_refl)). lia. }
  split; [|assumption]. apply K in Ib. lia.
Qed.

Lemma SS_sub l m r : StronglySorted lt (l ++ m ++ r) -> StronglySorted lt m.
Proof.
  intros H. apply SS_app_r in H. induction m as [|a m IH]; [constructor|]. cbn in H. inversion H; subst. constructor; auto.
  rewrite Forall_forall in *. intros x Hx. apply H3. apply in_app_iff. now left.
Qed.

Lemma find_peaks_spec ccwfs index time len stride rebin_stride pmt_ids sipm_ids pw sw sipms sel :
  index <> [] -> StronglySorted lt index -> (forall i, In i index -> (i < cols ccwfs)%nat) ->
  is_mat ccwfs -> length pmt_ids = length (rows ccwfs) -> 0 < pw ->
  s2_setup sipms ccwfs index sipm_ids rebin_stride pw sw sel ->
  exists pks gs q,
    find_peaks ccwfs index time len stride rebin_stride pmt_ids sipm_ids pw sw sipms sel = Ok pks /\
    gap_partition stride index gs /\ (forall g, q g = true <-> qualifies time len pw g) /\
    ordered (filter q gs) /\
    Forall2 (fun g pk => exists a b, starts_at g a /\ ends_at g b /\ (a <= b)%nat /\ made_of ccwfs pw pmt_ids a b pk) (filter q gs) pks.
Proof.
  intros Hne Hs Hi Hm Hid Hw Hset.
  pose proof (split_gap_partition index stride Hne) as GP. set (gs := split_in_peaks index stride) in *.
  set (q := validb time len pw).
  set (times := map (fun i => qn i * pw) (seq 0 (cols ccwfs))). set (widths := repeat pw (cols ccwfs)).
  assert (Lt : length times = cols ccwfs) by (unfold times; now rewrite map_length, seq_length).
  assert (Lw : length widths = cols ccwfs) by (unfold widths; now rewrite repeat_length).
  assert (Hb : forall g, In g gs -> exists a b, ends g = Ok (a, b) /\ (a <= b)%nat /\ (b < cols ccwfs)%nat /\ In a index).
  { intros g Hg. destruct GP as [Hc Hn _ _]. rewrite Forall_forall in Hn. specialize (Hn g Hg).
    destruct g as [|x g]; [easy|]. exists x, (last g x). split; [reflexivity|].
    assert (Hsub : forall y, In y (x :: g) -> In y index). { intros y Hy. rewrite <- Hc. apply in_concat. eauto. }
    assert (SG : StronglySorted lt (x :: g)).
    { apply in_split in Hg. destruct Hg as (u & v & Eg). rewrite Eg in Hc. rewrite concat_app in Hc. cbn [concat] in Hc.
      rewrite <- Hc in Hs. now apply SS_sub in Hs. }
    destruct (ends_in (x :: g) x (last g x) eq_refl) as [I1 I2]. destruct (SS_ends _ _ _ SG eq_refl) as [H1 H2].
    split; [assumption|]. split; [apply Hi; apply Hsub; assumption|]. apply Hsub. assumption. }
  assert (BP : forall g, In g gs -> exists pk, build_peak g times widths ccwfs pmt_ids sipm_ids rebin_stride sipms pw sw sel = Ok pk /\
     exists a b, starts_at g a /\ ends_at g b /\ (a <= b)%nat /\ made_of ccwfs pw pmt_ids a b pk).
  { intros g Hg. destruct (Hb g Hg) as (a & b & E & Hab & Hbc & Hain). pose proof E as E'. apply ends_spec in E'.
    destruct sipms as [sm|].
    - destruct Hset as [(r & m & Hr & Hmm & Hfl & Hst & Hsm & Hcl & Hsid & Hsel) Hpos].
      subst rebin_stride.
      destruct (build_peak_with_sipms g a b times widths ccwfs pmt_ids sipm_ids sm pw sw sel r m)
        as (pk & reb & tss & wss & Eb & Ei & _ & _ & P & _ & _); try assumption; try lia.
      { apply Nat.div_lt_upper_bound; lia. }
      exists pk. split; [exact Eb|]. exists a, b. split; [tauto|]. split; [tauto|]. split; [assumption|].
      apply (picked_made_of a b (cols ccwfs) pw ccwfs (a mod r) (r * m) pk pmt_ids Hw Hab Hbc); try assumption.
      + pose proof (Nat.mod_upper_bound a r ltac:(lia)). nia.
      + right. now apply Hpos.
    - destruct (build_peak_pmt_only g a b times widths ccwfs pmt_ids sipm_ids rebin_stride pw sw sel)
        as (pk & Eb & Ei & _ & P); try assumption; try lia.
      exists pk. split; [exact Eb|]. exists a, b. split; [tauto|]. split; [tauto|]. split; [assumption|].
      apply (picked_made_of a b (cols ccwfs) pw ccwfs 0 (step rebin_stride) pk pmt_ids Hw Hab Hbc (step_pos _)); try assumption.
      now left. }
  unfold find_peaks. fold gs. fold times. fold widths. rewrite (select_peaks_ok gs time len pw (gp_nonempty _ _ _ GP)). cbn [rbind]. fold q.
  destruct (rmap_ok (fun g => build_peak g times widths ccwfs pmt_ids sipm_ids rebin_stride sipms pw sw sel) (filter q gs)) as (pks & E & F).
  { intros g Hg. apply filter_In in Hg. destruct (BP g) as (pk & Epk & _); [tauto|]. eauto. }
  exists pks, gs, q. split; [exact E|]. split; [exact GP|]. split; [intros g; apply validb_qualifies|]. split.
  - apply ordered_filter, ordered_concat. now rewrite (gp_concat _ _ _ GP).
  - eapply Forall2_impl_in; [|exact F]. cbn beta. intros g pk Hg Epk. apply filter_In in Hg.
    destruct (BP g) as (pk' & Epk' & H); [tauto|]. rewrite Epk in Epk'. inversion Epk'; subst. exact H.
Qed.

(** ---------- peak objects ---------- *)
Lemma mk_peak_spec times widths pmts sipms :
  (exists pk, mk_peak times widths pmts sipms = Ok pk /\ p_times pk = times /\ p_widths pk = widths /\ p_pmts pk = pmts /\ p_sipms pk = sipms) <->
  ((0 < length times)%nat /\ cols (r_wfs pmts) = length times /\ (cols (r_wfs sipms) = 0%nat \/ cols (r_wfs sipms) = length times)).
Proof.
  unfold mk_peak, check_valid_input. destruct (Nat.eqb_spec (length times) 0) as [E|E].
  - split; [intros (pk & H & _); discriminate|lia].
  - destruct (Nat.eqb_spec (length times) (cols (r_wfs pmts))) as [E1|E1]; cbn [negb orb].
    + destruct (Nat.eqb_spec (length times) (cols (r_wfs sipms))) as [E2|E2]; cbn [negb andb].
      * split; [lia|]. intros _. eexists. split; [reflexivity|]. auto.
      * destruct (Nat.eqb_spec (cols (r_wfs sipms)) 0) as [E3|E3]; cbn [negb rbind].
        -- split; [lia|]. intros _. eexists. split; [reflexivity|]. auto.
        -- split; [intros (pk & H & _); discriminate|lia].
    + split; [intros (pk & H & _); discriminate|lia].
Qed.

Lemma fold_qmax_ge l x : x <= fold_left qmax l x /\ (forall y, In y l -> y <= fold_left qmax l x).
Proof.
  revert x; induction l as [|a l IH]; intros x; cbn; [split; [lra|easy]|].
  destruct (IH (qmax x a)) as [H1 H2].
  assert (x <= qmax x a /\ a <= qmax x a) as [M1 M2] by (unfold qmax; destruct (Qltb_spec x a); lra).
  split; [lra|]. intros y [->|Hy]; [lra|]. now apply H2.
Qed.

(** time_at_max_energy is the time of a sample that has the height *)
Lemma argmax_from_max l : forall best ibest i pre,
  length pre = i -> (ibest < i)%nat -> nth ibest pre 0 = best ->
  let r := argmax_from best ibest i l in
  (r < i + length l)%nat /\ nth r (pre ++ l) 0 = fold_left qmax l best.
Proof.
  induction l as [|x l IH]; intros best ibest i pre Hl Hi Hb; cbn [argmax_from fold_left].
  - rewrite app_nil_r. cbn. split; [lia|assumption].
  - assert (E : pre ++ x :: l = (pre ++ [x]) ++ l) by (rewrite <- app_assoc; reflexivity). rewrite E.
    unfold qmax at 2. destruct (Qltb best x).
    + destruct (IH x i (S i) (pre ++ [x])) as (H1 & H2).
      { rewrite app_length; cbn; lia. } { lia. } { rewrite app_nth2 by lia. now replace (i - length pre)%nat with 0%nat by lia. }
      cbn zeta in *. split; [cbn [length]; lia|assumption].
    + destruct (IH best ibest (S i) (pre ++ [x])) as (H1 & H2).
      { rewrite app_length; cbn; lia. } { lia. } { rewrite app_nth1 by lia. assumption. }
      cbn zeta in *. split; [cbn [length]; lia|assumption].
Qed.

Lemma maximum_spec l : l <> [] ->
  (argmax l < length l)%nat /\ nth (argmax l) l 0 = maximum l /\ (forall y, In y l -> y <= maximum l).
Proof.
  destruct l as [|x l]; [easy|intros _]. cbn [argmax maximum].
  destruct (argmax_from_max l x 0 1 [x]) as (H1 & H2); auto. cbn zeta in *.
  split; [cbn [length]; lia|]. split; [exact H2|]. destruct (fold_qmax_ge l x) as [G1 G2].
  intros y [->|Hy]; auto.
Qed.

Lemma length_sum_over_sensors m : length (sum_over_sensors m) = cols m.
Proof. unfold sum_over_sensors. now rewrite map_length, seq_length. Qed.

Lemma above_in wf thr i : In i (above wf thr) <-> (i < length wf)%nat /\ thr < nth i wf 0.
Proof.
  unfold above, np_where.
  assert (H : forall l k, In i (where_from k (fun x => Qltb thr x) l) <-> (k <= i < k + length l)%nat /\ thr < nth (i - k) l 0).
  { induction l as [|a l IH]; intros k; cbn [where_from length].
    - split; [easy|lia].
    - assert (R : In i (where_from (S k) (fun x => Qltb thr x) l) <-> (S k <= i < k + S (length l))%nat /\ thr < nth (i - k) (a :: l) 0).
      { rewrite IH. destruct (Nat.lt_ge_cases k i).
        - replace (i - k)%nat with (S (i - S k)) by lia. cbn [nth]. intuition lia.
        - split; intros [H1 H2]; lia. }
      destruct (Qltb_spec thr a) as [L|L].
      + cbn [In]. rewrite R. split.
        * intros [->|[H1 H2]]; [rewrite Nat.sub_diag; split; [lia|assumption]|]. split; [lia|assumption].
        * intros [H1 H2]. destruct (Nat.eq_dec k i); [now left|]. right. split; [lia|assumption].
      + rewrite R. split; intros [H1 H2].
        * split; [lia|assumption].
        * split; [|assumption]. destruct (Nat.eq_dec k i); [|lia]. subst. rewrite Nat.sub_diag in H2. cbn in H2. lra. }
  rewrite H. rewrite Nat.sub_0_r. intuition lia.
Qed.

Lemma sumQ_take_above wf thr : sumQ (take wf (above wf thr)) == sumF (fun x => if Qltb thr x then x else 0) wf.
Proof.
  unfold take, above, np_where.
  assert (H : forall l pre, sumQ (map (fun i => nth i (pre ++ l) 0) (where_from (length pre) (fun x => Qltb thr x) l))
     == sumF (fun x => if Qltb thr x then x else 0) l).
  { induction l as [|a l IH]; intros pre; [reflexivity|]. cbn [where_from]. rewrite sumF_cons.
    specialize (IH (pre ++ [a])). rewrite app_length in IH. cbn [length] in IH. rewrite Nat.add_1_r, <- app_assoc in IH. cbn [app] in IH.
    destruct (Qltb thr a); cbn [map sumQ]; rewrite IH; [|lra].
    rewrite app_nth2 by lia. rewrite Nat.sub_diag. reflexivity. }
  exact (H wf []).
Qed.

Lemma energy_antitone p t1 t2 : 0 <= t1 -> t1 <= t2 -> energy_above_threshold p t2 <= energy_above_threshold p t1.
Proof.
  intros H0 H. unfold energy_above_threshold. rewrite !sumQ_take_above. apply sumF_le. intros x _.
  destruct (Qltb_spec t2 x), (Qltb_spec t1 x); lra.
Qed.

Lemma charge_antitone p t1 t2 : 0 <= t1 -> t1 <= t2 -> charge_above_threshold p t2 <= charge_above_threshold p t1.
Proof.
  intros H0 H. unfold charge_above_threshold. rewrite !sumQ_take_above. apply sumF_le. intros x _.
  destruct (Qltb_spec t2 x), (Qltb_spec t1 x); lra.
Qed.

Lemma where_from_sorted {A} (p : A -> bool) l k : StronglySorted lt (where_from k p l) /\ forall i, In i (where_from k p l) -> (k <= i)%nat.
Proof.
  revert k; induction l as [|a l IH]; intros k; cbn; [split; [constructor|easy]|].
  destruct (IH (S k)) as [H1 H2]. destruct (p a).
  - split.
    + constructor; [assumption|]. apply Forall_forall. intros i Hi. apply H2 in Hi. lia.
    + intros i [->|Hi]; [lia|]. apply H2 in Hi. lia.
  - split; [assumption|]. intros i Hi. apply H2 in Hi. lia.
Qed.

Lemma slice_widths_mono ws i1 i2 j1 j2 : (forall w, In w ws -> 0 <= w) -> (j1 <= i1)%nat -> (i2 <= j2)%nat -> (i1 <= i2)%nat ->
  sumQ (slice i1 i2 ws) <= sumQ (slice j1 j2 ws).
Proof.
  intros Hn H1 H2 H3. rewrite <- (slice_cat j1 i1 j2) by lia. rewrite <- (slice_cat i1 i2 j2) by lia. rewrite !sumQ_app.
  assert (P : forall a b, 0 <= sumQ (slice a b ws)).
  { intros a b. rewrite sumQ_sumF. apply sumF_nonneg. intros w Hw. apply Hn. unfold slice in Hw.
    rewrite <- (firstn_skipn a ws). apply in_app_iff. right. rewrite <- (firstn_skipn (b - a) (skipn a ws)). apply in_app_iff. now left. }
  pose proof (P j1 i1). pose proof (P i2 j2). lra.
Qed.

Lemma width_antitone p t1 t2 : (forall w, In w (p_widths p) -> 0 <= w) -> t1 <= t2 ->
  width_above_threshold p t2 <= width_above_threshold p t1.
Proof.
  intros Hw H. unfold width_above_threshold.
  assert (SS : forall t, StronglySorted lt (above (pmt_sum p) t)) by (intros; apply where_from_sorted).
  destruct (ends (above (pmt_sum p) t2)) as [[a b]|e] eqn:E2.
  - destruct (ends_in _ _ _ E2) as [Ia Ib]. destruct (SS_ends _ _ _ (SS t2) E2) as [Hab _].
    assert (S : forall i, In i (above (pmt_sum p) t2) -> In i (above (pmt_sum p) t1)).
    { intros i Hi. apply above_in in Hi. apply above_in. split; [tauto|]. lra. }
    destruct (ends (above (pmt_sum p) t1)) as [[c d]|e] eqn:E1.
    + destruct (SS_ends _ _ _ (SS t1) E1) as [Hcd K]. pose proof (K a (S a Ia)). pose proof (K b (S b Ib)).
      apply slice_widths_mono; try assumption; lia.
    + apply S in Ia. destruct (above (pmt_sum p) t1); [easy|discriminate].
  - destruct (ends (above (pmt_sum p) t1)) as [[c d]|e'] eqn:E1; [|lra].
    rewrite sumQ_sumF. apply sumF_nonneg. intros w Hwi. apply Hw. unfold slice in Hwi.
    rewrite <- (firstn_skipn c (p_widths p)). apply in_app_iff. right. rewrite <- (firstn_skipn (d + 1 - c) (skipn c (p_widths p))). apply in_app_iff. now left.
Qed.

Lemma weighted_nonneg x w : (forall a, In a x -> 0 <= a) -> (forall a, In a w -> 0 <= a) -> 0 <= weighted_mean x w.
Proof.
  intros Hx Hw. unfold weighted_mean.
  assert (N : 0 <= sumQ (map2 Qmult w x)).
  { revert w Hw; induction x as [|a x IH]; intros [|b w] Hw; cbn; try lra.
    assert (0 <= sumQ (map2 Qmult w x)) by (apply IH; [intros; apply Hx; now right|intros; apply Hw; now right]).
    pose proof (Hx a (or_introl eq_refl)). pose proof (Hw b (or_introl eq_refl)).
    pose proof (Qmult_le_0_compat b a). lra. }
  assert (D : 0 <= sumQ w) by (rewrite sumQ_sumF; apply sumF_nonneg; assumption).
  destruct (Qlt_le_dec 0 (sumQ w)) as [L|L].
  - apply Qle_shift_div_l; [assumption|]. lra.
  - assert (Z : sumQ w == 0) by lra. unfold Qdiv. rewrite Z. change (/ 0) with 0. lra.
Qed.

Lemma rms2_nonneg p thr : 0 <= thr -> 0 <= rms2_above_threshold p thr.
Proof.
  intros Ht. unfold rms2_above_threshold. destruct (_ || _); [lra|]. unfold weighted_var. apply weighted_nonneg.
  - intros a Ha. apply in_map_iff in Ha. destruct Ha as (x & <- & _). apply Qsq_nonneg.
  - intros a Ha. unfold take in Ha. apply in_map_iff in Ha. destruct Ha as (i & <- & Hi). apply above_in in Hi. lra.
Qed.
