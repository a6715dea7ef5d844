(** Rebinning, alignment and peak finding: the main lemmas *)
From Verif Require Import Base PeaksModel PeaksSpec PeaksProofs.
Local Open Scope Q_scope.

Lemma Forall2_map_r {A B C} (R : A -> C -> Prop) (f : B -> C) l m :
  Forall2 (fun a b => R a (f b)) l m -> Forall2 R l (map f m).
Proof. induction 1; cbn; auto. Qed.

Lemma Forall2_self {A B} (R : A -> B -> Prop) (f : A -> B) l :
  (forall a, In a l -> R a (f a)) -> Forall2 R l (map f l).
Proof. induction l; cbn; intros H; constructor; auto. Qed.

Lemma Forall2_same {A} (R : A -> A -> Prop) l : (forall a, In a l -> R a a) -> Forall2 R l l.
Proof. induction l; intros H; constructor; auto. apply H; now left. apply IHl. intros; apply H; now right. Qed.

Lemma Forall2_nth {A B} (R : A -> B -> Prop) l m k da db : Forall2 R l m -> (k < length l)%nat -> R (nth k l da) (nth k m db).
Proof. intros H; revert k; induction H; cbn; intros k Hk; [lia|]. destruct k; [assumption|]. apply IHForall2. lia. Qed.

Lemma slice_one l k : sumQ (slice k (S k) l) == nth k l 0.
Proof.
  rewrite slice_sum. replace (S k - k)%nat with 1%nat by lia. cbn [seq]. unfold sumF. cbn. lra.
Qed.

Lemma cdiv_1 n : cdiv n 1 = n.
Proof. unfold cdiv. rewrite Nat.div_1_r. lia. Qed.

Definition step (stride : Z) : nat := Z.to_nat (Z.max 1 stride).

Lemma length_even n s : length (even_slices n s) = cdiv n s.
Proof. unfold even_slices. now rewrite map_length, seq_length. Qed.

Lemma nth_even n s k d : (k < cdiv n s)%nat -> nth k (even_slices n s) d = (s * k, s * (k + 1))%nat.
Proof.
  intros Hk. unfold even_slices. rewrite (nth_indep _ d ((fun i => (s * i, s * (i + 1))%nat) 0%nat))
    by (rewrite map_length, seq_length; lia).
  rewrite (map_nth (fun i => (s * i, s * (i + 1))%nat)). now rewrite seq_nth by lia.
Qed.

Lemma nth_even_map (f : nat * nat -> Q) n s k : (k < cdiv n s)%nat ->
  nth k (map f (even_slices n s)) 0 = f (s * k, s * (k + 1))%nat.
Proof.
  intros Hk. rewrite (nth_indep _ 0 (f (0, 0)%nat)) by (rewrite map_length, length_even; lia).
  rewrite map_nth. now rewrite nth_even.
Qed.

Definition time_hyp (times : list Q) (wfs : mat) (a b : nat) (lo hi : Q) : Prop :=
  (forall i, (a <= i < b)%nat -> (i < length times)%nat -> lo <= nth i times 0 <= hi) \/
  ((exists j, (a <= j < b)%nat /\ (j < length times)%nat /\ 0 < col_sum wfs j) /\
   forall i, (a <= i < b)%nat -> (i < length times)%nat -> 0 < col_sum wfs i -> lo <= nth i times 0 <= hi).

Record rebinned (times widths : list Q) (wfs : mat) (s : nat) (ts ws : list Q) (m : mat) : Prop := {
  rb_len : length ts = cdiv (length times) s;
  rb_wlen : length ws = length ts;
  rb_cols : cols m = length ts;
  rb_mat : is_mat m;
  rb_w : forall k, (k < length ts)%nat -> nth k ws 0 == sumQ (slice (s * k) (s * (k + 1)) widths);
  rb_rows : Forall2 (fun r r' => forall k, (k < length ts)%nat -> nth k r' 0 == sumQ (slice (s * k) (s * (k + 1)) r)) (rows wfs) (rows m);
  rb_time : forall k, (k < length ts)%nat -> forall lo hi, time_hyp times wfs (s * k) (s * (k + 1)) lo hi -> lo <= nth k ts 0 <= hi }.

Lemma rebin_spec times widths wfs stride :
  is_mat wfs -> cols wfs = length times -> length widths = length times ->
  exists ts ws m, rebin_times_and_waveforms times widths wfs stride = Ok (ts, ws, m) /\
    rebinned times widths wfs (step stride) ts ws m.
Proof.
  intros Hm Hc Hw. unfold rebin_times_and_waveforms, step. destruct (Z.ltb_spec stride 2) as [L|L].
  - exists times, widths, wfs. split; [reflexivity|]. replace (Z.max 1 stride) with 1%Z by lia.
    change (Z.to_nat 1) with 1%nat.
    assert (E : forall k, (1 * k = k /\ 1 * (k + 1) = S k)%nat) by (intros; lia).
    constructor; auto.
    + now rewrite cdiv_1.
    + intros k Hk. destruct (E k) as [-> ->]. now rewrite slice_one.
    + apply Forall2_same. intros r Hr k Hk. destruct (E k) as [-> ->]. now rewrite slice_one.
    + intros k Hk lo hi H. destruct (E k) as [E1 E2]. unfold time_hyp in H. rewrite E1, E2 in H.
      destruct H as [H|((j & Hj & Hjl & Hp) & H)]; [apply H; lia|].
      assert (j = k) by lia. subst. apply H; auto.
  - set (s := Z.to_nat stride). replace (Z.to_nat (Z.max 1 stride)) with s by lia.
    assert (Hs : (0 < s)%nat) by lia. set (n := length times).
    destruct (rebin_slices_ok (even_slices n s) times widths wfs Hc) as (ts & E & F).
    { intros a b Hab. apply even_slices_in in Hab; [|assumption]. subst n. lia. }
    exists ts, (map (fun sl => sumQ (slice (fst sl) (snd sl) widths)) (even_slices n s)),
      {| cols := length (even_slices n s);
         rows := map (fun r => map (fun sl => sumQ (slice (fst sl) (snd sl) r)) (even_slices n s)) (rows wfs) |}.
    split; [exact E|].
    assert (Hl : length ts = cdiv n s) by (apply Forall2_len in F; now rewrite <- F, length_even).
    constructor.
    + exact Hl.
    + rewrite map_length, length_even. congruence.
    + cbn [cols]. rewrite length_even. congruence.
    + unfold is_mat. cbn [rows cols]. apply Forall_forall. intros r' Hr. apply in_map_iff in Hr.
      destruct Hr as (r & <- & _). now rewrite map_length.
    + intros k Hk. rewrite nth_even_map by lia. reflexivity.
    + cbn [rows]. apply Forall2_self. intros r _ k Hk. rewrite nth_even_map by lia. reflexivity.
    + intros k Hk lo hi H.
      pose proof (Forall2_nth _ _ _ k (0, 0)%nat 0 F ltac:(rewrite length_even; lia)) as B. cbn beta in B.
      rewrite nth_even in B by lia. pose proof (cdiv_spec n s Hs).
      destruct (bin_time_ok times wfs (s * k) (s * (k + 1)) Hc) as (t & Et & Ht); [subst n; nia|nia|].
      rewrite Et in B. inversion B; subst. apply Ht. exact H.
Qed.

Lemma sumQ_nth l : sumQ l == sumF (fun i => nth i l 0) (seq 0 (length l)).
Proof. rewrite sumQ_sumF. rewrite (sumF_nth (fun x => x) 0 l). reflexivity. Qed.

Lemma total_of_bins s n l l' : (0 < s)%nat -> length l = n -> length l' = cdiv n s ->
  (forall k, (k < length l')%nat -> nth k l' 0 == sumQ (slice (s * k) (s * (k + 1)) l)) -> sumQ l' == sumQ l.
Proof.
  intros Hs Hl Hl' H. pose proof (covers_sum l _ _ _ (even_slices_covers n s Hs)) as C.
  pose proof (cdiv_spec n s Hs). rewrite slice_all in C by lia. rewrite <- C. rewrite (sumQ_nth l'), Hl'.
  unfold even_slices. rewrite map_map. cbn [fst snd].
  change (sumQ (map ?f ?l)) with (sumF f l). apply sumF_ext. intros k Hk. apply in_seq in Hk. apply H. lia.
Qed.

Lemma step_pos stride : (0 < step stride)%nat.
Proof. unfold step. lia. Qed.

Lemma rebinned_totals times widths wfs s ts ws m : (0 < s)%nat ->
  is_mat wfs -> cols wfs = length times -> length widths = length times ->
  rebinned times widths wfs s ts ws m -> sumQ ws == sumQ widths /\ same_totals wfs m.
Proof.
  intros Hs Hm Hc Hw [Hl Hwl Hcl Hmat Hrw Hr Ht]. split.
  - apply (total_of_bins s (length times)); try assumption; try congruence.
    intros k Hk. apply Hrw. congruence.
  - unfold same_totals. unfold is_mat in *. clear - Hs Hl Hm Hc Hr Hmat Hcl.
    induction Hr as [|r r' R R' H Hr IH]; [constructor|].
    inversion Hm; inversion Hmat; subst. constructor; [|now apply IH].
    apply (total_of_bins s (length times)); try assumption; try congruence.
    intros k Hk. apply H. congruence.
Qed.

(** ordering of rebinned times *)
Definition nondecreasing (l : list Q) : Prop := forall i j, (i <= j < length l)%nat -> nth i l 0 <= nth j l 0.

Lemma rebinned_sorted times widths wfs s ts ws m : (0 < s)%nat ->
  rebinned times widths wfs s ts ws m -> nondecreasing times -> nondecreasing ts.
Proof.
  intros Hs R Hn i j Hij. destruct R as [Hl _ _ _ _ _ Ht].
  pose proof (cdiv_spec (length times) s Hs).
  destruct (Nat.eq_dec i j) as [->|Hne]; [lra|].
  set (c := nth (s * j) times 0).
  assert (H1 : nth 0 times 0 <= nth i ts 0 <= c).
  { apply Ht; [lia|]. left. intros k Hk Hkl. split; apply Hn; nia. }
  assert (H2 : c <= nth j ts 0 <= nth (length times - 1) times 0).
  { apply Ht; [lia|]. left. intros k Hk Hkl. split; apply Hn; nia. }
  lra.
Qed.

(** ---------- pick_slice_and_rebin ---------- *)
Lemma nth_slice {A} a b i (l : list A) d : (i < b - a)%nat -> nth i (slice a b l) d = nth (a + i) l d.
Proof.
  intros Hi. destruct (nth_error (slice a b l) i) eqn:E.
  - rewrite (nth_error_nth _ _ _ E). rewrite nth_error_slice in E. destruct (Nat.ltb_spec i (b - a)); [|lia].
    symmetry. now apply nth_error_nth.
  - rewrite nth_overflow by now apply nth_error_None. rewrite nth_error_slice in E.
    destruct (Nat.ltb_spec i (b - a)); [|lia]. rewrite nth_overflow; [reflexivity|]. now apply nth_error_None.
Qed.

Lemma length_pad p l : length (pad_left p l) = (p + length l)%nat.
Proof. unfold pad_left. now rewrite app_length, repeat_length. Qed.

Lemma pad_0 l : pad_left 0 l = l.
Proof. reflexivity. Qed.

(** absolute range of bin k of a peak a..b rebinned by s after padding p zeros *)
Definition bin_lo (a p s k : nat) : nat := a + (s * k - p).
Definition bin_hi (a b p s k : nat) : nat := Nat.min (b + 1) (a + (s * (k + 1) - p)).

Record picked (a b : nat) (times widths : list Q) (wfs : mat) (p s : nat) (ts ws : list Q) (m : mat) : Prop := {
  pk_len : length ts = cdiv (p + (b + 1 - a)) s;
  pk_wlen : length ws = length ts;
  pk_cols : cols m = length ts;
  pk_mat : is_mat m;
  pk_w : forall k, (k < length ts)%nat -> nth k ws 0 == charge_in (bin_lo a p s k) (bin_hi a b p s k) widths;
  pk_rows : Forall2 (fun r r' => forall k, (k < length ts)%nat ->
     nth k r' 0 == charge_in (bin_lo a p s k) (bin_hi a b p s k) r) (rows wfs) (rows m);
  pk_time : forall k, (k < length ts)%nat -> forall lo hi,
     (p = 0%nat \/ (0 < k)%nat \/ exists j, (bin_lo a p s k <= j < bin_hi a b p s k)%nat /\ 0 < col_sum wfs j) ->
     (forall i, (bin_lo a p s k <= i < bin_hi a b p s k)%nat -> lo <= nth i times 0 <= hi) ->
     lo <= nth k ts 0 <= hi;
  pk_wtot : sumQ ws == charge_in a (b + 1) widths;
  pk_rtot : Forall2 (fun r r' => sumQ r' == charge_in a (b + 1) r) (rows wfs) (rows m) }.

Lemma sumQ_pad p l : sumQ (pad_left p l) == sumQ l.
Proof.
  unfold pad_left. rewrite sumQ_app. assert (sumQ (repeat 0 p) == 0); [|lra].
  induction p; cbn; [reflexivity|]. rewrite IHp. lra.
Qed.

Lemma Forall2_map_l {A B C} (R : C -> B -> Prop) (f : A -> C) l m :
  Forall2 R (map f l) m -> Forall2 (fun a b => R (f a) b) l m.
Proof.
  revert m; induction l; intros m H; inversion H; subst; constructor; auto.
Qed.

Lemma Forall2_impl {A B} (R S : A -> B -> Prop) l m : (forall a b, R a b -> S a b) -> Forall2 R l m -> Forall2 S l m.
Proof. induction 2; auto. Qed.

Lemma col_sum_pad a c p wfs i : (a + (i - p) < c)%nat ->
  col_sum {| cols := p + (Nat.min c (cols wfs) - a); rows := map (pad_left p) (map (slice a c) (rows wfs)) |} i
  == if (i <? p)%nat then 0 else col_sum wfs (a + (i - p)).
Proof.
  intros Hi. unfold col_sum. cbn [rows]. rewrite !map_map.
  change (sumQ (map ?f ?l)) with (sumF f l). destruct (Nat.ltb_spec i p).
  - apply sumF_zero. intros r _. rewrite nth_pad. destruct (Nat.ltb_spec i p); [reflexivity|lia].
  - apply sumF_ext. intros r _. rewrite nth_pad. destruct (Nat.ltb_spec i p); [lia|].
    rewrite nth_slice by lia. reflexivity.
Qed.

Lemma pick_spec indices a b times widths wfs stride (pad : bool) ratio :
  let p := if pad then (a mod ratio)%nat else 0%nat in
  let s := step stride in
  ends indices = Ok (a, b) -> (a <= b)%nat -> (b < length times)%nat ->
  is_mat wfs -> (b < cols wfs)%nat -> (b < length widths)%nat -> (p < s)%nat ->
  exists ts ws m, pick_slice_and_rebin indices times widths wfs stride pad ratio = Ok (ts, ws, m) /\
    picked a b times widths wfs p s ts ws m.
Proof.
  intros p s He Hab Hb Hm Hc Hw Hp.
  set (T := pad_left p (slice a (b + 1) times)). set (W := pad_left p (slice a (b + 1) widths)).
  set (M := {| cols := p + (Nat.min (b + 1) (cols wfs) - a); rows := map (pad_left p) (map (slice a (b + 1)) (rows wfs)) |}).
  assert (E : pick_slice_and_rebin indices times widths wfs stride pad ratio = rebin_times_and_waveforms T W M stride).
  { unfold pick_slice_and_rebin. rewrite He. cbn [rbind]. unfold T, W, M, p. destruct pad; [reflexivity|].
    rewrite !pad_0. cbn [Nat.add]. unfold mslice. f_equal. f_equal. rewrite <- (map_id (map (slice a (b+1)) (rows wfs))) at 1.
    apply map_ext. reflexivity. }
  rewrite E. unfold is_mat in Hm. rewrite Forall_forall in Hm.
  assert (LT : length T = (p + (b + 1 - a))%nat) by (unfold T; rewrite length_pad, length_slice; lia).
  assert (LW : length W = length T) by (unfold T, W; rewrite !length_pad, !length_slice; lia).
  assert (CM : cols M = length T) by (rewrite LT; unfold M; cbn; lia).
  assert (MM : is_mat M).
  { unfold is_mat. apply Forall_forall. intros r Hr. unfold M in Hr. cbn [rows] in Hr. rewrite map_map in Hr.
    apply in_map_iff in Hr. destruct Hr as (r0 & <- & Hr0). rewrite length_pad, length_slice, (Hm r0 Hr0), CM. lia. }
  destruct (rebin_spec T W M stride MM CM LW) as (ts & ws & m & Er & R). fold s in R.
  destruct (rebinned_totals T W M s ts ws m (step_pos stride) MM CM LW R) as [Rw Rt].
  exists ts, ws, m. split; [exact Er|]. destruct R as [Rl Rwl Rcl Rmat RW RR RT].
  assert (key : forall r k, (k < length ts)%nat ->
     sumQ (slice (s * k) (s * (k + 1)) (pad_left p (slice a (b + 1) r))) == charge_in (bin_lo a p s k) (bin_hi a b p s k) r).
  { intros r k Hk. rewrite slice_pad_sum by nia. rewrite slice_slice. rewrite charge_in_slice. reflexivity. }
  constructor.
  - now rewrite Rl, LT.
  - assumption.
  - assumption.
  - assumption.
  - intros k Hk. rewrite (RW k Hk). unfold W. now apply key.
  - unfold M in RR. cbn [rows] in RR. rewrite map_map in RR. apply Forall2_map_l in RR.
    eapply Forall2_impl; [|exact RR]. cbn beta. intros r r' H k Hk. rewrite (H k Hk). now apply key.
  - intros k Hk lo hi Hpos Hi. apply (RT k Hk).
    assert (TN : forall i, (s * k <= i < s * (k + 1))%nat -> (i < length T)%nat -> (p <= i)%nat -> lo <= nth i T 0 <= hi).
    { intros i Hi1 Hi2 Hi3. unfold T. rewrite nth_pad. destruct (Nat.ltb_spec i p); [lia|].
      rewrite nth_slice by lia. apply Hi. unfold bin_lo, bin_hi. lia. }
    assert (CS : forall i, (i < length T)%nat -> col_sum M i == if (i <? p)%nat then 0 else col_sum wfs (a + (i - p))).
    { intros i Hi1. unfold M. apply col_sum_pad. lia. }
    destruct Hpos as [H0|[H0|(j & Hj & Hjp)]].
    + left. intros i Hi1 Hi2. apply TN; lia.
    + left. intros i Hi1 Hi2. apply TN; try lia. nia.
    + right. unfold bin_lo, bin_hi in Hj. split.
      * exists (j - a + p)%nat. split; [nia|]. split; [lia|]. rewrite CS by lia.
        destruct (Nat.ltb_spec (j - a + p) p); [lia|]. replace (a + (j - a + p - p))%nat with j by lia. assumption.
      * intros i Hi1 Hi2 Hi3. apply TN; try lia. rewrite CS in Hi3 by lia. destruct (Nat.ltb_spec i p); [lra|lia].
  - rewrite Rw. unfold W. rewrite sumQ_pad. now rewrite charge_in_slice.
  - unfold same_totals, M in Rt. cbn [rows] in Rt. rewrite map_map in Rt. apply Forall2_map_l in Rt.
    eapply Forall2_impl; [|exact Rt]. cbn beta. intros r r' H. rewrite H, sumQ_pad. now rewrite charge_in_slice.
Qed.

(** ---------- build_peak ---------- *)
Lemma cdiv_unique n s k : (0 < s)%nat -> (n <= s * k < n + s)%nat -> cdiv n s = k.
Proof. intros Hs H. pose proof (cdiv_spec n s Hs). nia. Qed.

Lemma cdiv_pos n s : (0 < s)%nat -> (0 < n)%nat -> (0 < cdiv n s)%nat.
Proof. intros Hs Hn. pose proof (cdiv_spec n s Hs). nia. Qed.

Lemma build_peak_pmt_only g a b times widths ccwf pmt_ids sipm_ids stride pw sw sel :
  ends g = Ok (a, b) -> (a <= b)%nat -> (b < length times)%nat -> (b < length widths)%nat -> (b < cols ccwf)%nat ->
  is_mat ccwf -> length pmt_ids = length (rows ccwf) ->
  exists pk, build_peak g times widths ccwf pmt_ids sipm_ids stride None pw sw sel = Ok pk /\
    r_ids (p_pmts pk) = pmt_ids /\ p_sipms pk = empty_responses /\
    picked a b times widths ccwf 0 (step stride) (p_times pk) (p_widths pk) (r_wfs (p_pmts pk)).
Proof.
  intros He Hab Hb Hbw Hbc Hm Hid. unfold build_peak.
  destruct (pick_spec g a b times widths ccwf stride false (Z.to_nat (Qfloor (sw / pw))) He Hab Hb Hm Hbc Hbw (step_pos stride))
    as (ts & ws & m & E & P).
  cbv zeta. rewrite E. cbn [rbind]. unfold mk_responses. pose proof (Forall2_len _ _ _ (pk_rows _ _ _ _ _ _ _ _ _ _ P)) as Lr.
  rewrite <- Lr, Hid, Nat.eqb_refl. cbn [negb rbind]. unfold mk_peak, check_valid_input. cbn [r_wfs].
  rewrite (pk_cols _ _ _ _ _ _ _ _ _ _ P). change (cols (r_wfs empty_responses)) with 0%nat.
  pose proof (pk_len _ _ _ _ _ _ _ _ _ _ P) as L.
  assert (0 < length ts)%nat by (rewrite L; apply cdiv_pos; [apply step_pos|lia]).
  destruct (Nat.eqb_spec (length ts) 0); [lia|]. rewrite !Nat.eqb_refl. cbn [negb orb andb].
  rewrite ?andb_false_r. cbn [rbind]. eexists. split; [reflexivity|]. cbn. auto.
Qed.

Lemma ends_map f g a b : ends g = Ok (a, b) -> ends (map f g) = Ok (f a, f b).
Proof.
  destruct g as [|x g]; [discriminate|]. cbn. intros E. inversion E; subst. f_equal. f_equal.
  clear E. generalize a. induction g as [|y g IH]; intros z; [reflexivity|].
  cbn [map]. destruct g as [|w g]; [reflexivity|]. exact (IH z).
Qed.

Lemma fancy_ok {A} (l : list A) idx : Forall (fun i => (i < length l)%nat) idx ->
  exists r, fancy l idx = Ok r /\ length r = length idx /\ Forall2 (fun i a => nth_error l i = Some a) idx r.
Proof.
  intros H. unfold fancy. destruct (rmap_ok (fun i => match nth_error l i with Some a => Ok a | None => Err IndexError end) idx) as (r & E & F).
  - intros i Hi. rewrite Forall_forall in H. specialize (H i Hi). destruct (nth_error l i) eqn:En; [eauto|].
    apply nth_error_None in En. lia.
  - exists r. split; [exact E|]. split; [symmetry; now apply Forall2_len in F|].
    eapply Forall2_impl; [|exact F]. cbn. intros i x Hx. destruct (nth_error l i); inversion Hx; reflexivity.
Qed.

Lemma same_bins a b r m : (0 < r)%nat -> (0 < m)%nat -> (a <= b)%nat ->
  cdiv (a mod r + (b + 1 - a)) (r * m) = cdiv (0 + (b / r + 1 - a / r)) m.
Proof.
  intros Hr Hm Hab. set (n' := (0 + (b / r + 1 - a / r))%nat). pose proof (cdiv_spec n' m Hm) as C.
  set (k := cdiv n' m) in *.
  pose proof (Nat.div_mod a r ltac:(lia)) as Da. pose proof (Nat.div_mod b r ltac:(lia)) as Db.
  pose proof (Nat.mod_upper_bound a r ltac:(lia)) as Ma. pose proof (Nat.mod_upper_bound b r ltac:(lia)) as Mb.
  assert (a / r <= b / r)%nat by (apply Nat.div_le_mono; lia).
  assert (N : (a mod r + (b + 1 - a) = r * (b / r - a / r) + b mod r + 1)%nat) by nia.
  apply cdiv_unique; [nia|]. rewrite N. clear N. subst n'.
  set (d := (b / r - a / r)%nat) in *. replace (0 + (b / r + 1 - a / r))%nat with (d + 1)%nat in C by lia.
  clearbody k d. split.
  - apply Nat.le_trans with (r * (d + 1))%nat; [nia|]. rewrite <- Nat.mul_assoc. apply Nat.mul_le_mono_l. lia.
  - rewrite <- Nat.mul_assoc. assert (m * k <= d + m)%nat by lia.
    assert (r * (m * k) <= r * (d + m))%nat by (apply Nat.mul_le_mono_l; lia). nia.
Qed.

Lemma build_peak_with_sipms g a b times widths ccwf pmt_ids sipm_ids sipm_wfs pw sw sel (r m : nat) :
  Qfloor (sw / pw) = Z.of_nat r -> (0 < r)%nat -> (0 < m)%nat ->
  ends g = Ok (a, b) -> (a <= b)%nat -> (b < length times)%nat -> (b < length widths)%nat -> (b < cols ccwf)%nat ->
  is_mat ccwf -> length pmt_ids = length (rows ccwf) ->
  (b / r < cols sipm_wfs)%nat -> is_mat sipm_wfs -> length sipm_ids = length (rows sipm_wfs) -> good_selection sel ->
  exists pk reb tss wss, build_peak g times widths ccwf pmt_ids sipm_ids (Z.of_nat (r * m)) (Some sipm_wfs) pw sw sel = Ok pk /\
    r_ids (p_pmts pk) = pmt_ids /\ r_wfs (p_sipms pk) = snd (sel reb) /\
    Forall2 (fun i id => nth_error sipm_ids i = Some id) (fst (sel reb)) (r_ids (p_sipms pk)) /\
    picked a b times widths ccwf (a mod r) (r * m) (p_times pk) (p_widths pk) (r_wfs (p_pmts pk)) /\
    picked (a / r) (b / r) (map (fun t => floor_div t r) times) (map (fun w => w * qn r) widths) sipm_wfs 0 m tss wss reb /\
    cols reb = length (p_times pk).
Proof.
  intros Hfl Hr Hm He Hab Hb Hbw Hbc Hmat Hid Hsb Hsm Hsid Hsel.
  assert (Hrm : (0 < r * m)%nat) by nia.
  assert (S1 : step (Z.of_nat (r * m)) = (r * m)%nat) by (unfold step; lia).
  assert (S2 : (Z.of_nat (r * m) / Z.of_nat r)%Z = Z.of_nat m).
  { rewrite Nat2Z.inj_mul. rewrite Z.mul_comm. apply Z.div_mul. lia. }
  assert (S3 : step (Z.of_nat m) = m) by (unfold step; lia).
  assert (Hdab : (a / r <= b / r)%nat) by (apply Nat.div_le_mono; lia).
  assert (Hdb : (b / r <= b)%nat) by (apply Nat.div_le_upper_bound; nia).
  unfold build_peak. rewrite Hfl, Nat2Z.id. cbv zeta.
  destruct (pick_spec g a b times widths ccwf (Z.of_nat (r * m)) true r He Hab Hb Hmat Hbc Hbw) as (ts & ws & M & E & P).
  { rewrite S1. pose proof (Nat.mod_upper_bound a r ltac:(lia)). nia. }
  rewrite E. cbn [rbind]. rewrite S1 in P.
  pose proof (Forall2_len _ _ _ (pk_rows _ _ _ _ _ _ _ _ _ _ P)) as Lr.
  unfold mk_responses at 1. rewrite <- Lr, Hid, Nat.eqb_refl. cbn [negb rbind]. rewrite S2.
  destruct (pick_spec (map (fun i => (i / r)%nat) g) (a / r) (b / r) (map (fun t => floor_div t r) times)
             (map (fun w => w * qn r) widths) sipm_wfs (Z.of_nat m) false 40) as (tss & wss & reb & Es & Ps).
  { now apply (ends_map (fun i => (i / r)%nat)). } { assumption. } { rewrite map_length. lia. } { assumption. } { assumption. }
  { rewrite map_length. lia. } { rewrite S3. lia. }
  rewrite Es. cbn [rbind]. rewrite S3 in Ps.
  destruct (Hsel reb (pk_mat _ _ _ _ _ _ _ _ _ _ Ps)) as (G1 & G2 & G3). destruct (sel reb) as [idx wfs] eqn:Esel. cbn [fst snd] in G1, G2, G3.
  pose proof (Forall2_len _ _ _ (pk_rows _ _ _ _ _ _ _ _ _ _ Ps)) as Lrs.
  destruct (fancy_ok sipm_ids idx) as (ids & Ef & Lf & Ff). { rewrite Hsid, Lrs. assumption. }
  rewrite Ef. cbn [rbind]. unfold mk_responses. rewrite Lf, G1, Nat.eqb_refl. cbn [negb rbind].
  pose proof (pk_len _ _ _ _ _ _ _ _ _ _ P) as L. pose proof (pk_len _ _ _ _ _ _ _ _ _ _ Ps) as Ls.
  assert (EQ : length tss = length ts) by (rewrite L, Ls; symmetry; now apply same_bins).
  assert (0 < length ts)%nat by (rewrite L; apply cdiv_pos; lia).
  unfold mk_peak, check_valid_input. cbn [r_wfs].
  rewrite (pk_cols _ _ _ _ _ _ _ _ _ _ P), G2, (pk_cols _ _ _ _ _ _ _ _ _ _ Ps), EQ.
  destruct (Nat.eqb_spec (length ts) 0); [lia|]. rewrite !Nat.eqb_refl. cbn [negb orb andb rbind].
  eexists _, reb, tss, wss. split; [reflexivity|]. cbn [p_pmts p_sipms r_ids r_wfs p_times p_widths]. rewrite Esel. cbn [fst snd].
  do 5 (split; [first [reflexivity|assumption]|]). rewrite (pk_cols _ _ _ _ _ _ _ _ _ _ Ps). assumption.
Qed.
