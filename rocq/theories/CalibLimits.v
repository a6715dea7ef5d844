(** C48: integration limits *)
From Verif Require Import Base Arrays PeaksModel CalibModel CalibSpec.
Local Open Scope nat_scope.

(** ---- lists ---- *)
Lemma length_limits ws : length (limits_of ws) = 2 * length ws.
Proof. unfold limits_of. induction ws as [|w ws IH]; [reflexivity|]. cbn [flat_map app length]. rewrite IH. cbn. lia. Qed.
Lemma nth_limits ws k d : nth (2 * k) (limits_of ws) (fst d) = fst (nth k ws d) /\ nth (2 * k + 1) (limits_of ws) (snd d) = snd (nth k ws d) \/ length ws <= k.
Proof.
  revert k. induction ws as [|w ws IH]; intros k; [right; cbn; lia|]. destruct k as [|k]; [left; split; reflexivity|].
  destruct (IH k) as [[I1 I2]|I]; [left|right; cbn; lia]. replace (2 * S k) with (S (S (2 * k))) by lia. split; [exact I1|exact I2].
Qed.
Lemma nth_fst ws k : k < length ws -> nth (2 * k) (limits_of ws) 0%Z = fst (nth k ws (0, 0)%Z).
Proof. intros H. destruct (nth_limits ws k (0, 0)%Z) as [[H1 _]|H1]; [exact H1|lia]. Qed.
Lemma nth_snd ws k : k < length ws -> nth (2 * k + 1) (limits_of ws) 0%Z = snd (nth k ws (0, 0)%Z).
Proof. intros H. destruct (nth_limits ws k (0, 0)%Z) as [[_ H1]|H1]; [exact H1|lia]. Qed.
Lemma limits_slice ws i j : limits_of (slice i j ws) = slice (2 * i) (2 * j) (limits_of ws).
Proof.
  unfold slice. assert (F : forall n l, limits_of (firstn n l) = firstn (2 * n) (limits_of l)).
  { induction n as [|n IH]; intros [|w l]; try reflexivity. replace (2 * S n) with (S (S (2 * n))) by lia. cbn [firstn limits_of flat_map app]. do 2 f_equal. apply IH. }
  assert (S : forall n l, limits_of (skipn n l) = skipn (2 * n) (limits_of l)).
  { induction n as [|n IH]; intros [|w l]; try reflexivity. replace (2 * S n) with (S (S (2 * n))) by lia. cbn [skipn limits_of flat_map app]. apply IH. }
  rewrite F, S. f_equal. lia.
Qed.
Lemma sorted_nth (l : list Z) i j : StronglySorted Z.le l -> i <= j < length l -> (nth i l 0 <= nth j l 0)%Z.
Proof.
  intros S. revert i j. induction S as [|a l S IH F]; intros i j H; [cbn in H; lia|]. rewrite Forall_forall in F. destruct i as [|i], j as [|j]; cbn in *; try lia; [apply F, nth_In; lia|apply IH; lia].
Qed.
Lemma below_prefix (l : list Z) (t : Z) k : StronglySorted Z.le l -> k < length l -> (nth k l 0 < t)%Z <-> k < length (filter (fun x => (x <? t)%Z) l).
Proof.
  intros S. revert k. induction S as [|a l S IH F]; intros k H; [cbn in H; lia|]. cbn [filter]. destruct (Z.ltb_spec a t).
  - cbn [length]. destruct k as [|k]; cbn; [lia|]. cbn in H. rewrite IH by lia. lia.
  - assert (E : filter (fun x => (x <? t)%Z) l = []). { clear IH S k H. rewrite Forall_forall in F. induction l as [|b l IHl]; [reflexivity|]. cbn. destruct (Z.ltb_spec b t); [specialize (F b (or_introl eq_refl)); lia|]. apply IHl. intros; apply F; now right. }
    rewrite E. cbn. destruct k as [|k]; cbn; [lia|]. rewrite Forall_forall in F. specialize (F (nth k l 0%Z)). cbn in H. specialize (F (nth_In l (n := k) 0%Z ltac:(lia))). lia.
Qed.
Lemma filter_length_split {A} (p : A -> bool) l : length (filter p l) + length (filter (fun x => negb (p x)) l) = length l.
Proof. induction l as [|a l IH]; [reflexivity|]. cbn. destruct (p a); cbn; lia. Qed.

(** a mask that is true from [x] to [y] *)
Definition block (x y n : nat) : list bool := map (fun k => (x <=? k) && (k <? y)) (seq 0 n).
Lemma length_block x y n : length (block x y n) = n.
Proof. unfold block. now rewrite map_length, seq_length. Qed.
Lemma nth_block x y n k : k < n -> nth k (block x y n) false = (x <=? k) && (k <? y).
Proof. intros H. unfold block. rewrite (nth_indep _ false ((fun k => (x <=? k) && (k <? y)) 0)) by (now rewrite map_length, seq_length). now rewrite map_nth with (f := fun k => (x <=? k) && (k <? y)), seq_nth. Qed.
Lemma select_block {A} (l : list A) x y : y <= length l -> select (block x y (length l)) l = slice x y l.
Proof.
  assert (G : forall (l : list A) s x y, select (map (fun k => (x <=? k) && (k <? y)) (seq s (length l))) l = slice (x - s) (y - s) l).
  { clear. induction l as [|a l IH]; intros s x y; [unfold slice; now rewrite skipn_nil, firstn_nil|]. cbn [length seq map select]. unfold slice in *. destruct (Nat.leb_spec x s) as [H|H]; cbn [andb].
    - destruct (Nat.ltb_spec s y) as [H'|H'].
      + rewrite IH. replace (x - s) with 0 by lia. replace (x - S s) with 0 by lia. cbn [skipn]. replace (y - s - 0) with (S (y - S s - 0)) by lia. reflexivity.
      + rewrite IH. replace (x - s) with 0 by lia. replace (y - s) with 0 by lia. replace (x - S s) with 0 by lia. replace (y - S s) with 0 by lia. reflexivity.
    - rewrite IH. replace (x - s) with (S (x - S s)) by lia. cbn [skipn]. f_equal. lia. }
  intros H. unfold block. rewrite G. now rewrite !Nat.sub_0_r.
Qed.
Lemma block_first x y n : x < n -> upd x false (block x y n) = block (x + 1) y n.
Proof.
  intros H. apply (list_ext_nth _ _ false); [now rewrite length_upd, !length_block|]. intros k Hk. rewrite length_upd, length_block in Hk. rewrite nth_upd by (now rewrite length_block). rewrite !nth_block by assumption.
  destruct (Nat.eqb_spec k x), (Nat.leb_spec x k), (Nat.leb_spec (x + 1) k), (Nat.ltb_spec k y); cbn; try reflexivity; lia.
Qed.
Lemma block_last x y n : 0 < y <= n -> upd (y - 1) false (block x y n) = block x (y - 1) n.
Proof.
  intros H. apply (list_ext_nth _ _ false); [now rewrite length_upd, !length_block|]. intros k Hk. rewrite length_upd, length_block in Hk. rewrite nth_upd by (rewrite length_block; lia). rewrite !nth_block by assumption.
  destruct (Nat.eqb_spec k (y - 1)), (Nat.leb_spec x k), (Nat.ltb_spec k y), (Nat.ltb_spec k (y - 1)); cbn; try reflexivity; lia.
Qed.
Lemma n_false_block_firstn x y n h : x <= h <= y -> h <= n -> n_false (firstn h (block x y n)) = x.
Proof.
  intros H Hn. assert (E : firstn h (block x y n) = repeat false x ++ repeat true (h - x)).
  { apply (list_ext_nth _ _ false); [rewrite firstn_length, length_block, app_length, !repeat_length; lia|]. intros k Hk. rewrite firstn_length, length_block in Hk.
    assert (Ek : nth k (firstn h (block x y n)) false = nth k (block x y n) false) by (rewrite <- (firstn_skipn h (block x y n)) at 2; symmetry; apply app_nth1; rewrite firstn_length, length_block; lia).
    rewrite Ek, nth_block by lia. destruct (Nat.lt_ge_cases k x) as [K|K].
    - rewrite app_nth1 by (now rewrite repeat_length). rewrite nth_repeat. destruct (Nat.leb_spec x k); [lia|reflexivity].
    - rewrite app_nth2 by (now rewrite repeat_length). rewrite repeat_length. rewrite (nth_indep _ false true) by (rewrite repeat_length; lia). rewrite nth_repeat. destruct (Nat.leb_spec x k), (Nat.ltb_spec k y); cbn; lia. }
  rewrite E. unfold n_false. rewrite filter_app, app_length. assert (Ff : forall m, length (filter negb (repeat false m)) = m) by (induction m; cbn; congruence). assert (Ft : forall m, length (filter negb (repeat true m)) = 0) by (induction m; cbn; congruence). rewrite Ff, Ft. lia.
Qed.
Lemma n_false_block x y n : x <= y <= n -> n_false (block x y n) = x + (n - y).
Proof.
  intros H. assert (E : block x y n = repeat false x ++ repeat true (y - x) ++ repeat false (n - y)).
  { apply (list_ext_nth _ _ false); [rewrite length_block, !app_length, !repeat_length; lia|]. intros k Hk. rewrite length_block in Hk. rewrite nth_block by lia. destruct (Nat.lt_ge_cases k x) as [K|K].
    - rewrite app_nth1 by (now rewrite repeat_length). rewrite nth_repeat. destruct (Nat.leb_spec x k); [lia|reflexivity].
    - rewrite app_nth2 by (now rewrite repeat_length). rewrite repeat_length. destruct (Nat.lt_ge_cases k y) as [K'|K'].
      + rewrite app_nth1 by (rewrite repeat_length; lia). rewrite (nth_indep _ false true) by (rewrite repeat_length; lia). rewrite nth_repeat. destruct (Nat.leb_spec x k), (Nat.ltb_spec k y); cbn; lia.
      + rewrite app_nth2 by (rewrite repeat_length; lia). rewrite nth_repeat. destruct (Nat.leb_spec x k), (Nat.ltb_spec k y); cbn; lia. }
  rewrite E. unfold n_false. rewrite !filter_app, !app_length. assert (Ff : forall m, length (filter negb (repeat false m)) = m) by (induction m; cbn; congruence). assert (Ft : forall m, length (filter negb (repeat true m)) = 0) by (induction m; cbn; congruence). rewrite !Ff, Ft. lia.
Qed.
Lemma filter_slice {A} (p : A -> bool) (l : list A) i j d : (forall k, k < length l -> p (nth k l d) = ((i <=? k) && (k <? j))) -> filter p l = slice i j l.
Proof.
  revert i j. induction l as [|a l IH]; intros i j H; [unfold slice; now rewrite skipn_nil, firstn_nil|]. cbn [filter]. pose proof (H 0 ltac:(cbn; lia)) as H0. cbn [nth] in H0. rewrite H0.
  assert (Hs : forall i' j', (forall k, k < length l -> ((i <=? S k) && (S k <? j)) = ((i' <=? k) && (k <? j'))) -> filter p l = slice i' j' l).
  { intros i' j' E. apply IH. intros k Hk. rewrite <- E by assumption. apply (H (S k)). cbn. lia. }
  unfold slice in *. destruct i as [|i].
  - destruct j as [|j].
    + cbn. apply (Hs 0 0). intros k Hk. reflexivity.
    + cbn [Nat.leb andb Nat.ltb]. cbn [skipn Nat.sub firstn]. f_equal. rewrite (Hs 0 j); [now rewrite Nat.sub_0_r|]. intros k Hk. reflexivity.
  - cbn [Nat.leb andb skipn]. rewrite (Hs i (j - 1)); [|intros k Hk; destruct (Nat.leb_spec (S i) (S k)), (Nat.leb_spec i k), (Nat.ltb_spec (S k) j), (Nat.ltb_spec k (j - 1)); cbn; lia]. f_equal. lia.
Qed.

(** the windows that are kept are those inside the buffer *)
Theorem C48_filter_limits ws L : (0 <= L)%Z -> successive ws -> half_out L ws ->
  filter_limits (limits_of ws) L = Ok (limits_of (filter (inside L) ws)).
Proof.
  intros HL S [Ha Hb]. set (n := length ws) in *. unfold how_many_limits in Ha, Hb. unfold successive in S.
  pose proof (length_limits ws) as Len. fold n in Len. set (lim := limits_of ws) in *. set (a := length (filter (fun x => (x <? 0)%Z) lim)) in *. set (b := length (filter (fun x => (L <? x)%Z) lim)) in *.
  assert (Hb2 : length (filter (fun x => (x <? L + 1)%Z) lim) = 2 * n - b).
  { pose proof (filter_length_split (fun x => (L <? x)%Z) lim) as E. fold b in E. replace (filter (fun x => (x <? L + 1)%Z) lim) with (filter (fun x => negb (L <? x)%Z) lim); [lia|]. apply filter_ext. intros x. destruct (Z.ltb_spec L x), (Z.ltb_spec x (L + 1)); cbn; lia. }
  assert (Hlow : forall k, k < 2 * n -> (nth k lim 0 < 0)%Z <-> k < a) by (intros k Hk; unfold a; apply below_prefix; [assumption|lia]).
  assert (Hhigh : forall k, k < 2 * n -> (nth k lim 0 <= L)%Z <-> k < 2 * n - b) by (intros k Hk; rewrite <- Hb2, <- below_prefix by (try assumption; lia); lia).
  assert (Hw : map (fun x => (0 <=? x)%Z && (x <? L + 1)%Z) lim = block a (2 * n - b) (2 * n)).
  { apply (list_ext_nth _ _ false); [rewrite map_length, length_block; lia|]. intros k Hk. rewrite map_length in Hk. rewrite nth_block by lia.
    rewrite (nth_indep _ false ((fun x => (0 <=? x)%Z && (x <? L + 1)%Z) 0%Z)) by (now rewrite map_length). rewrite map_nth with (f := fun x => (0 <=? x)%Z && (x <? L + 1)%Z).
    specialize (Hlow k ltac:(lia)). specialize (Hhigh k ltac:(lia)). destruct (Z.leb_spec 0 (nth k lim 0%Z)), (Z.ltb_spec (nth k lim 0%Z) (L + 1)), (Nat.leb_spec a k), (Nat.ltb_spec k (2 * n - b)); cbn; try reflexivity; lia. }
  assert (Hh : length lim / 2 = n) by (rewrite Len, Nat.mul_comm; apply Nat.div_mul; lia).
  unfold filter_limits. rewrite Hw, Hh.
  assert (N1 : n_false (firstn n (block a (2 * n - b) (2 * n))) = a) by (apply n_false_block_firstn; lia).
  assert (N2 : n_false (skipn n (block a (2 * n - b) (2 * n))) = b).
  { pose proof (n_false_block a (2 * n - b) (2 * n) ltac:(lia)) as E. rewrite <- (firstn_skipn n (block a (2 * n - b) (2 * n))) in E. unfold n_false in *. rewrite filter_app, app_length in E. lia. }
  rewrite N1, N2.
  set (a' := if Nat.odd a then a + 1 else a). set (b' := if Nat.odd b then b + 1 else b).
  assert (Ea : exists i, a' = 2 * i /\ (a <= a' <= a + 1)). { unfold a'. destruct (Nat.odd a) eqn:E; [apply Nat.odd_spec in E; destruct E as (i & E); exists (i + 1); lia|]. rewrite <- Nat.negb_even in E. apply Bool.negb_false_iff, Nat.even_spec in E. destruct E as (i & E). exists i. lia. }
  assert (Eb : exists j, b' = 2 * j /\ (b <= b' <= b + 1)). { unfold b'. destruct (Nat.odd b) eqn:E; [apply Nat.odd_spec in E; destruct E as (i & E); exists (i + 1); lia|]. rewrite <- Nat.negb_even in E. apply Bool.negb_false_iff, Nat.even_spec in E. destruct E as (i & E). exists i. lia. }
  destruct Ea as (i & Ei & Ba), Eb as (j & Ej & Bb).
  assert (Step1 : (if Nat.odd a then set_false a (block a (2 * n - b) (2 * n)) else Ok (block a (2 * n - b) (2 * n))) = Ok (block a' (2 * n - b) (2 * n))).
  { unfold a'. destruct (Nat.odd a) eqn:E; [|reflexivity]. apply Nat.odd_spec in E. destruct E as (i0 & E). unfold set_false. rewrite length_block. destruct (Nat.ltb_spec a (2 * n)); [|lia]. now rewrite block_first by assumption. }
  rewrite Step1. cbn [rbind].
  assert (Step2 : (if Nat.odd b then set_false_end (b + 1) (block a' (2 * n - b) (2 * n)) else Ok (block a' (2 * n - b) (2 * n))) = Ok (block a' (2 * n - b') (2 * n))).
  { unfold b'. destruct (Nat.odd b) eqn:E; [|reflexivity]. apply Nat.odd_spec in E. destruct E as (i0 & E). unfold set_false_end. rewrite length_block. destruct (Nat.leb_spec (b + 1) (2 * n)); [|lia].
    replace (2 * n - (b + 1)) with (2 * n - b - 1) by lia. now rewrite block_last by lia. }
  rewrite Step2. cbn [rbind]. f_equal. rewrite <- Len. rewrite select_block by lia. rewrite Len.
  rewrite (filter_slice (inside L) ws i (n - j) (0, 0)%Z).
  - rewrite limits_slice. fold lim. f_equal; lia.
  - intros k Hk. fold n in Hk. unfold inside. rewrite <- nth_fst, <- nth_snd by assumption. fold lim. pose proof (Hlow (2 * k) ltac:(lia)) as H1. pose proof (Hlow (2 * k + 1) ltac:(lia)) as H2. pose proof (Hhigh (2 * k) ltac:(lia)) as H3. pose proof (Hhigh (2 * k + 1) ltac:(lia)) as H4.
    destruct (Z.leb_spec 0 (nth (2 * k) lim 0%Z)), (Z.leb_spec (nth (2 * k + 1) lim 0%Z) L), (Nat.leb_spec i k), (Nat.ltb_spec k (n - j)); cbn; try reflexivity; exfalso; lia.
Qed.
Print Assumptions C48_filter_limits.

Lemma limits_windows n f w p : flat_map (fun k => [f + Z.of_nat k * p; f + w + Z.of_nat k * p]%Z) (seq 0 n) = limits_of (windows n f w p).
Proof. unfold limits_of, windows. generalize (seq 0 n). induction l as [|k l IH]; [reflexivity|]. cbn. now rewrite IH. Qed.
Lemma windows_shift n f w p d : map (fun x => x - w - d)%Z (limits_of (windows n f w p)) = limits_of (windows n (f - w - d) w p).
Proof. unfold limits_of, windows. generalize (seq 0 n). induction l as [|k l IH]; [reflexivity|]. cbn [map flat_map app fst snd]. rewrite <- IH. cbn [map flat_map app fst snd]. f_equal; [lia|]. f_equal. lia. Qed.
Lemma windows_successive n f w p : (0 <= w <= p)%Z -> successive (windows n f w p).
Proof.
  intros H. unfold successive, limits_of, windows. assert (G : forall n s, StronglySorted Z.le (flat_map (fun w0 : Z * Z => [fst w0; snd w0]) (map (fun k => (f + Z.of_nat k * p, f + w + Z.of_nat k * p)%Z) (seq s n))) /\
    Forall (fun x => (f + Z.of_nat s * p <= x)%Z) (flat_map (fun w0 : Z * Z => [fst w0; snd w0]) (map (fun k => (f + Z.of_nat k * p, f + w + Z.of_nat k * p)%Z) (seq s n)))).
  { clear n. induction n as [|n IH]; intros s; [split; constructor|]. destruct (IH (S s)) as [I1 I2]. cbn [seq map flat_map app fst snd].
    assert (I3 : Forall (fun x => (f + w + Z.of_nat s * p <= x)%Z) (flat_map (fun w0 : Z * Z => [fst w0; snd w0]) (map (fun k => (f + Z.of_nat k * p, f + w + Z.of_nat k * p)%Z) (seq (S s) n)))) by (eapply Forall_impl; [|exact I2]; cbn beta; intros x Hx; lia).
    assert (I4 : Forall (fun x => (f + Z.of_nat s * p <= x)%Z) (flat_map (fun w0 : Z * Z => [fst w0; snd w0]) (map (fun k => (f + Z.of_nat k * p, f + w + Z.of_nat k * p)%Z) (seq (S s) n)))) by (eapply Forall_impl; [|exact I2]; cbn beta; intros x Hx; lia).
    split; repeat constructor; try assumption; lia. }
  exact (proj1 (G n 0)).
Qed.

(** the limits for a calibration: [n] windows of [w] samples every [p] samples from the sample [f], and the same windows before the light *)
Theorem C48_valid_limits sw n start width period L f w p :
  f = Qfloor (start * 1000 / sw) -> w = Qceiling (width * 1000 / sw) -> p = Qceiling (period * 1000 / sw) -> (0 <= L)%Z -> (0 <= w <= p)%Z ->
  let light := windows n f w p in let dark := windows n (f - w - Qfloor (2 * 1000 / sw)) w p in
  half_out L light -> half_out L dark ->
  valid_integral_limits sw n start width period L = Ok (limits_of (filter (inside L) light), limits_of (filter (inside L) dark)).
Proof.
  intros -> -> -> HL Hw light dark H1 H2. unfold valid_integral_limits, integral_limits. rewrite limits_windows, windows_shift. unfold in_samples_floor, in_samples_ceil, us.
  change (rbind (filter_limits (limits_of light) L) (fun c => rbind (filter_limits (limits_of dark) L) (fun a => Ok (c, a))) = Ok (limits_of (filter (inside L) light), limits_of (filter (inside L) dark))).
  rewrite (C48_filter_limits light L HL) by (try assumption; now apply windows_successive). cbn [rbind]. rewrite (C48_filter_limits dark L HL) by (try assumption; now apply windows_successive). reflexivity.
Qed.
Print Assumptions C48_valid_limits.

Lemma reduceat_windows wf ws : StronglySorted Z.lt (limits_of ws) -> Forall (fun x => (0 <= x)%Z) (limits_of ws) ->
  every_other (reduceat wf (map Z.to_nat (limits_of ws))) = map (fun w => sumQ (slice (Z.to_nat (fst w)) (Z.to_nat (snd w)) wf)) ws.
Proof.
  induction ws as [|[s e] ws IH]; intros S F; [reflexivity|]. unfold limits_of in *. cbn [flat_map fst snd app map] in *. inversion S as [|? ? S1 S2]; subst. inversion S1 as [|? ? S3 S4]; subst. inversion S2 as [|? ? S5 _]; subst. inversion F as [|? ? F1 F2]; subst. inversion F2 as [|? ? F3 F4]; subst.
  specialize (IH S3 F4). cbn [reduceat]. destruct (Nat.ltb_spec (Z.to_nat s) (Z.to_nat e)); [|lia]. destruct (map Z.to_nat (flat_map (fun w : Z * Z => [fst w; snd w]) ws)) as [|x l] eqn:E.
  - cbn [every_other]. cbn in IH. destruct ws; [reflexivity|discriminate].
  - cbn [every_other]. f_equal. exact IH.
Qed.

(** the integrals of limits that lie inside the waveforms: the sum of each window, for each sensor *)
Theorem C48_integrals m ws : ws <> [] -> StronglySorted Z.lt (limits_of ws) -> Forall (fun x => 0 <= x < Z.of_nat (cols m))%Z (limits_of ws) ->
  waveform_integrator m (limits_of ws) = Ok (map (fun wf => map (fun w => sumQ (slice (Z.to_nat (fst w)) (Z.to_nat (snd w)) wf)) ws) (rows m)).
Proof.
  intros Hn S F. unfold waveform_integrator, spaced_integrals. destruct (limits_of ws) as [|x l] eqn:E; [destruct ws; [easy|discriminate]|]. rewrite <- E in *.
  assert (Hex : existsb (fun x => (x <? 0)%Z || (Z.of_nat (cols m) <=? x)%Z) (limits_of ws) = false).
  { apply Bool.not_true_iff_false. intros K. apply existsb_exists in K. destruct K as (y & Hy & K). rewrite Forall_forall in F. specialize (F y Hy). lia. }
  rewrite Hex. cbn [rbind]. f_equal. rewrite map_map. apply map_ext. intros wf. apply reduceat_windows; [assumption|]. eapply Forall_impl; [|exact F]. cbn beta. lia.
Qed.
Print Assumptions C48_integrals.
(** limits outside the waveforms, or no limits, are refused *)
Theorem C48_bad_limits m limits : limits = [] \/ (exists x, In x limits /\ (x < 0 \/ Z.of_nat (cols m) <= x)%Z) -> waveform_integrator m limits = Err ValueError.
Proof.
  intros [->|(x & Hx & K)]; [reflexivity|]. unfold waveform_integrator, spaced_integrals. destruct limits as [|y l]; [easy|]. set (limits := y :: l) in *.
  assert (Hex : existsb (fun x => (x <? 0)%Z || (Z.of_nat (cols m) <=? x)%Z) limits = true) by (apply existsb_exists; exists x; split; [assumption|lia]). now rewrite Hex.
Qed.
Print Assumptions C48_bad_limits.

Example C48_example : half_out 100 (windows 3 (-5) 20 40) /\ half_out 100 (windows 3 (-5 - 20 - 2) 20 40) /\
  valid_integral_limits 1000 3 (-5) 20 40 100 = Ok ([35; 55; 75; 95]%Z, [13; 33; 53; 73]%Z).
Proof. split; [|split]; [| |reflexivity]; unfold half_out; cbn; lia. Qed.

(** a window that ends with the buffer is accepted by the first function and refused by the second *)
Theorem C48_end_of_buffer_refuted : exists m l, valid_integral_limits 1000 1 80 20 20 100 = Ok (l, [58; 78]%Z) /\ cols m = 100 /\ waveform_integrator m l = Err ValueError.
Proof. exists {| cols := 100; rows := [] |}, [80; 100]%Z. split; [reflexivity|]. split; [reflexivity|]. apply C48_bad_limits. right. exists 100%Z. split; [right; now left|right; reflexivity]. Qed.
Print Assumptions C48_end_of_buffer_refuted.
(** when more than half of the limits are outside, limits of different windows may be paired, or left alone *)
Theorem C48_many_outside_refuted : filter_limits (limits_of (windows 3 0 20 40)) 10 = Ok [0%Z] /\ filter_limits (limits_of (windows 4 0 20 40)) 50 = Ok [0; 40]%Z.
Proof. split; reflexivity. Qed.
Print Assumptions C48_many_outside_refuted.
(** windows longer than the period *)
Theorem C48_overlapping_refuted : filter_limits (limits_of (windows 2 (-10) 30 6)) 100 = Ok [26%Z].
Proof. reflexivity. Qed.
Print Assumptions C48_overlapping_refuted.
