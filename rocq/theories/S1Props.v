(** C75 *)
From Coq Require Import Lia Lqa.
From Verif Require Import Base Arrays PeaksModel PeaksProofs BuffersModel BuffersProofs CorrMore WfmProps DetsimModel DetsimProps DetsimWfs S1Model S1Spec.
Local Open Scope Q_scope.

Lemma ceil_multiple (b w : Q) n : 0 < w -> b == qn n * w -> Qceiling (b / w) = Z.of_nat n.
Proof.
  intros W E. assert (b / w == inject_Z (Z.of_nat n)) as H by (rewrite E; unfold qn; field; lra). rewrite H. apply Qceiling_Z.
Qed.
Lemma floor_multiple (b w : Q) n : 0 < w -> b == qn n * w -> Qfloor (b / w) = Z.of_nat n.
Proof.
  intros W E. assert (b / w == inject_Z (Z.of_nat n)) as H by (rewrite E; unfold qn; field; lra). rewrite H. apply Qfloor_Z.
Qed.
Lemma length_edges a b w n : 0 < w -> b == qn n * w -> length (arange a (a + b + w) w) = S n.
Proof.
  intros W E. unfold arange. rewrite map_length, seq_length. assert (a + b + w - a == qn (S n) * w) as H by (rewrite E; unfold qn; rewrite Nat2Z.inj_succ; unfold Z.succ; rewrite inject_Z_plus; ring).
  rewrite (ceil_multiple _ w (S n)); [lia|assumption|assumption].
Qed.
Lemma nth_arange a b w i : (i < length (arange a b w))%nat -> nth i (arange a b w) 0 = a + qn i * w.
Proof.
  unfold arange. rewrite map_length, seq_length. intros H. rewrite (nth_indep _ 0 (a + qn 0 * w)) by now rewrite map_length, seq_length.
  rewrite (map_nth (fun i => a + qn i * w)), seq_nth by assumption. reflexivity.
Qed.

Lemma in_edges_spec a b w n i t : 0 < w -> b == qn n * w -> (i < n)%nat -> (in_edges (arange a (a + b + w) w) i t = true <-> in_bin a w n i t).
Proof.
  intros W E Hi. unfold in_edges. pose proof (length_edges a b w n W E) as L. rewrite L, !nth_arange by lia. unfold in_bin.
  rewrite andb_true_iff, orb_true_iff, andb_true_iff, Nat.eqb_eq, !Qle_bool_iff, Qltb_lt. split.
  - intros (H1 & H2). split; [assumption|]. split; [assumption|]. destruct H2 as [H2|[H2 H3]]; [now left|]. destruct (Qlt_le_dec t (a + qn (S i) * w)) as [H4|H4]; [now left|]. right.
    split; [lia|]. replace n with (S i) by lia. lra.
  - intros (_ & H1 & H2). split; [assumption|]. destruct H2 as [H2|[H2 H3]]; [now left|]. right. split; [lia|]. rewrite H2. lra.
Qed.

Lemma nth_skip {A} (l : list A) i j d : nth j (skipn i l) d = nth (i + j) l d.
Proof. revert l. induction i as [|i IH]; intros [|x l]; cbn [skipn Nat.add nth]; [reflexivity..|now destruct j|apply IH]. Qed.
Lemma nth_first {A} (l : list A) i j d : (j < i)%nat -> nth j (firstn i l) d = nth j l d.
Proof. revert j l. induction i as [|i IH]; intros j [|x l] H; try lia; [now destruct j|]. destruct j; [reflexivity|]. cbn. apply IH. lia. Qed.
Lemma add_tail_ok p wf s idx n : length p = S n -> length s = n -> (idx < n)%nat ->
  exists s', add_tail p wf s idx = Ok s' /\ length s' = n /\ forall j, (j < n)%nat -> nth j s' 0 == nth j s 0 + (if Nat.leb idx j then nth idx wf 0 * nth (j - idx) p 0 else 0).
Proof.
  intros Lp Ls Hi. unfold add_tail. set (vs := map _ _). assert (Lv : length vs = (n - idx)%nat) by (unfold vs; rewrite map_length, firstn_length; lia).
  rewrite Lv, skipn_length, Ls, Nat.eqb_refl. eexists. split; [reflexivity|]. assert (Lm : length (map2 Qplus (skipn idx s) vs) = (n - idx)%nat) by (rewrite length_map2_eq; rewrite ?skipn_length; lia).
  split; [rewrite app_length, firstn_length, Lm; lia|]. intros j Hj. destruct (Nat.leb_spec idx j) as [H|H].
  - rewrite app_nth2 by (rewrite firstn_length; lia). rewrite firstn_length, Ls, Nat.min_l by lia. rewrite (nth_map2 _ _ _ _ 0 0) by (rewrite ?skipn_length; lia).
    rewrite nth_skip. replace (idx + (j - idx))%nat with j by lia.
    assert (nth (j - idx) vs 0 = nth idx wf 0 * nth (j - idx) p 0) as ->.
    { unfold vs. rewrite (nth_indep _ 0 (nth idx wf 0 * 0)) by (rewrite map_length, firstn_length; lia). rewrite (map_nth (fun q => nth idx wf 0 * q)). f_equal.
      apply nth_first. lia. }
    lra.
  - rewrite app_nth1 by (rewrite firstn_length; lia). rewrite nth_first by lia. lra.
Qed.

Lemma spread_in_time_ok p wf n : length p = S n -> length wf = n -> (forall i, 0 <= nth i wf 0) ->
  exists s, spread_in_time p wf = Ok s /\ length s = n /\ forall j, (j < n)%nat -> nth j s 0 == sumF (fun i => if Nat.leb i j then nth i wf 0 * nth (j - i) p 0 else 0) (seq 0 n).
Proof.
  intros Lp Lw P. unfold spread_in_time.
  destruct (rfold_adds (add_tail p wf) (fun s => length s = n) (fun s j => nth j s 0) (fun j => (j < n)%nat) (fun i j => if Nat.leb i j then nth i wf 0 * nth (j - i) p 0 else 0)
              (np_where (fun x => Qltb 0 x) wf)) with (s := repeat 0 (length wf)) as (s & E & L & H).
  - intros s i Hi Hs. apply in_np_where with (d := 0) in Hi. apply (add_tail_ok p wf s i n); [assumption|assumption|lia].
  - now rewrite repeat_length.
  - exists s. split; [assumption|]. split; [assumption|]. intros j Hj. rewrite H by assumption. rewrite nth_repeat, Qplus_0_l. unfold np_where. clear -P Lw.
    (* the bins without light add nothing *)
    assert (G : forall l k pre, length pre = k -> wf = pre ++ l -> sumF (fun i => if Nat.leb i j then nth i wf 0 * nth (j - i) p 0 else 0) (where_from k (fun x => Qltb 0 x) l) ==
       sumF (fun i => if Nat.leb i j then nth i wf 0 * nth (j - i) p 0 else 0) (seq k (length l))).
    { induction l as [|x l IH]; intros k pre Lk Ew; [reflexivity|]. cbn [where_from length seq]. assert (nth k wf 0 = x) as Ex by (rewrite Ew, app_nth2, Lk, Nat.sub_diag by lia; reflexivity).
      assert (IH' := IH (S k) (pre ++ [x])). rewrite app_length, Lk in IH'. cbn [length] in IH'. specialize (IH' ltac:(lia) ltac:(now rewrite <- app_assoc)). rewrite sumF_cons.
      destruct (Qltb_spec 0 x) as [Hx|Hx]; [rewrite sumF_cons, IH'; reflexivity|]. rewrite IH'. pose proof (P k) as Pk. rewrite Ex in *. assert (X0 : x == 0) by lra. destruct (Nat.leb k j); [rewrite X0|]; lra. }
    rewrite <- Lw. now apply (G wf 0%nat []).
Qed.

Lemma time_bins_ok emitted b w n : (forall s t, s == t -> emitted s == emitted t) -> 0 < w -> b == qn n * w ->
  exists p, time_bins emitted b w = Ok p /\ length p = S n /\ forall k, nth k p 0 == fraction emitted w (emission_bins b w) k.
Proof.
  intros F W E. unfold time_bins. pose proof (floor_multiple b w n W E) as Hf. rewrite Hf, Nat2Z.id. set (ts := arange 0 _ w).
  assert (Bn : 0 <= b) by (rewrite E; apply Qmult_le_0_compat; [unfold qn; rewrite <- (inject_Z_0) || idtac; change 0 with (inject_Z 0); rewrite <- Zle_Qle; lia|lra]).
  assert (Lt : length ts = S (emission_bins b w)).
  { unfold ts, arange, emission_bins. rewrite map_length, seq_length. assert ((Qmin 2000 b + w - 0) / w == Qmin 2000 b / w + inject_Z 1) as -> by (change (inject_Z 1) with 1; field; lra).
    assert (C : Qceiling (Qmin 2000 b / w + inject_Z 1) = (Qceiling (Qmin 2000 b / w) + 1)%Z).
    { apply Qceil_spec. destruct (proj1 (Qceil_spec (Qmin 2000 b / w) _) eq_refl) as [C1 C2]. rewrite inject_Z_plus. replace (Qceiling (Qmin 2000 b / w) + 1 - 1)%Z with (Qceiling (Qmin 2000 b / w) - 1 + 1)%Z by lia.
      rewrite inject_Z_plus. lra. }
    rewrite C. assert (0 <= Qceiling (Qmin 2000 b / w))%Z; [|lia].
    rewrite Zle_Qle. apply Qle_trans with (Qmin 2000 b / w); [|apply Qle_ceiling]. apply Qle_shift_div_l; [assumption|]. rewrite Qmult_0_l. apply Q.min_glb; [lra|assumption]. }
  assert (Le : (emission_bins b w <= n)%nat).
  { unfold emission_bins. assert (Qceiling (Qmin 2000 b / w) <= Z.of_nat n)%Z; [|lia]. rewrite <- (ceil_multiple b w n W E). apply Qceiling_resp_le.
    unfold Qdiv. apply Qmult_le_compat_r; [apply Q.le_min_r|]. apply Qlt_le_weak, Qinv_lt_0_compat; assumption. }
  rewrite Lt. cbn [Nat.sub]. rewrite Nat.sub_0_r. destruct (Nat.ltb_spec (S n) (emission_bins b w)) as [H|_]; [lia|]. eexists. split; [reflexivity|]. split; [now rewrite map_length, seq_length|].
  intros k. unfold fraction. destruct (Nat.ltb_spec k (S n)) as [Hk|Hk].
  - match goal with |- nth k (map ?f _) 0 == _ => rewrite (nth_indep _ 0 (f 0%nat)) by (rewrite map_length, seq_length; lia); rewrite (map_nth f) end. rewrite seq_nth by lia. cbn [Nat.add].
    destruct (Nat.ltb_spec k (emission_bins b w)) as [H|H]; [|reflexivity]. assert (N1 : nth (S k) ts 0 = 0 + qn (S k) * w) by (apply nth_arange; fold ts; lia). assert (N2 : nth k ts 0 = 0 + qn k * w) by (apply nth_arange; fold ts; lia).
    rewrite N1, N2. rewrite (F (0 + qn (S k) * w) (qn (S k) * w)), (F (0 + qn k * w) (qn k * w)) by ring. reflexivity.
  - rewrite nth_overflow by (rewrite map_length, seq_length; lia). destruct (Nat.ltb_spec k (emission_bins b w)); [lia|reflexivity].
Qed.


Lemma is_in_bin_spec a w n i t : is_in_bin a w n i t = true <-> in_bin a w n i t.
Proof. unfold is_in_bin, in_bin. rewrite !andb_true_iff, orb_true_iff, andb_true_iff, Nat.ltb_lt, Nat.eqb_eq, Qle_bool_iff, Qltb_lt, Qeqb_eq. tauto. Qed.
Lemma histogram_ok times l a b w n : 0 < w -> b == qn n * w -> length times = length l ->
  exists h, histogram times l (arange a (a + b + w) w) = Ok h /\ length h = n /\ forall i, (i < n)%nat -> nth i h 0 = light_in a w n i (combine times l).
Proof.
  intros W E L. unfold histogram. rewrite L, Nat.eqb_refl. cbn [negb]. rewrite (length_edges a b w n W E). cbn [Nat.sub]. rewrite Nat.sub_0_r. eexists. split; [reflexivity|].
  split; [now rewrite map_length, seq_length|]. intros i Hi. match goal with |- nth i (map ?f _) 0 = _ => rewrite (nth_indep _ 0 (f 0%nat)) by (rewrite map_length, seq_length; lia); rewrite (map_nth f) end.
  rewrite seq_nth by assumption. cbn [Nat.add]. unfold light_in. f_equal. apply filter_ext. intros h. apply eq_true_iff_eq. rewrite is_in_bin_spec. now apply in_edges_spec.
Qed.
Lemma light_in_nonneg a w n i hits : (forall h, In h hits -> 0 <= snd h) -> 0 <= light_in a w n i hits.
Proof. intros H. apply sumF_nonneg. intros h Hh. apply filter_In in Hh. apply H, Hh. Qed.
Lemma combine_nonneg (times l : list Q) : (forall q, In q l -> 0 <= q) -> forall h, In h (combine times l) -> 0 <= snd h.
Proof. intros H [t q] Hh. apply in_combine_r in Hh. auto. Qed.
Lemma rmap_F2 {A B} (f : A -> result B) (R : A -> B -> Prop) l : (forall a, In a l -> exists b, f a = Ok b /\ R a b) -> exists m, rmap f l = Ok m /\ Forall2 R l m.
Proof.
  induction l as [|a l IH]; intros H; [exists []; split; [reflexivity|constructor]|]. destruct (H a (or_introl eq_refl)) as (b & E & Hb). destruct IH as (m & Em & Hm); [intros; apply H; now right|].
  exists (b :: m). cbn [rmap]. rewrite E. cbn [rbind]. rewrite Em. split; [reflexivity|now constructor].
Qed.
Lemma sum_upto (f : nat -> Q) j n : (j < n)%nat -> sumF (fun i => if Nat.leb i j then f i else 0) (seq 0 n) == sumF f (seq 0 (S j)).
Proof.
  intros H. replace n with (S j + (n - S j))%nat by lia. rewrite seq_app, sumF_app. rewrite (sumF_zero _ (seq (0 + S j) _)) by (intros i Hi; apply in_seq in Hi; destruct (Nat.leb_spec i j); [lia|reflexivity]).
  rewrite Qplus_0_r. apply sumF_ext. intros i Hi. apply in_seq in Hi. destruct (Nat.leb_spec i j); [reflexivity|lia].
Qed.

(** the light of each hit falls in the bins from its own on, following the emission in time *)
Theorem C75_s1_waveforms emitted pes_at_pmts times b w a n : 0 < w -> b == qn n * w -> emission emitted -> pes_at_pmts <> [] ->
  (forall pes, In pes pes_at_pmts -> length pes = length times /\ forall q, In q pes -> 0 <= q) ->
  exists wfs, generate_s1_waveform emitted pes_at_pmts times b w a = Ok wfs /\
    Forall2 (fun pes wf => length wf = n /\ forall j, (j < n)%nat ->
      nth j wf 0 == sumF (fun i => light_in a w n i (combine times pes) * fraction emitted w (emission_bins b w) (j - i)) (seq 0 (S j))) pes_at_pmts wfs.
Proof.
  intros W E (F & _) N H. unfold generate_s1_waveform. assert (Qeqb w 0 = false) as -> by (apply Qeqb_neq; lra).
  destruct (rmap_F2 (fun pes => histogram times pes (arange a (a + b + w) w)) (fun pes h => length h = n /\ (forall q, In q pes -> 0 <= q) /\ forall i, (i < n)%nat -> nth i h 0 = light_in a w n i (combine times pes)) pes_at_pmts) as (hs & E1 & F1).
  { intros pes Hp. destruct (H pes Hp) as (L & P). destruct (histogram_ok times pes a b w n W E (eq_sym L)) as (h & E1 & L1 & H1). exists h. auto. }
  rewrite E1. cbn [rbind]. destruct (time_bins_ok emitted b w n F W E) as (p & E2 & Lp & Hp).
  destruct hs as [|h0 hs0] eqn:Eh; [inversion F1; subst; congruence|]. rewrite <- Eh in *. clear Eh h0 hs0. rewrite E2. cbn [rbind]. clear E1 N H.
  induction F1 as [|pes h pess hs (L1 & P1 & H1) F1 IH]; [exists []; split; [reflexivity|constructor]|]. destruct IH as (wfs & E3 & F3).
  destruct (spread_in_time_ok p h n Lp L1) as (s & Es & Ls & Hs).
  { intros i. destruct (Nat.ltb_spec i n) as [Hi|Hi]; [rewrite H1 by assumption; apply light_in_nonneg, combine_nonneg, P1|rewrite nth_overflow by lia; lra]. }
  exists (s :: wfs). cbn [rmap]. rewrite Es. cbn [rbind]. rewrite E3. split; [reflexivity|]. constructor; [|assumption]. split; [assumption|]. intros j Hj. rewrite Hs by assumption.
  rewrite (sum_upto (fun i => nth i h 0 * nth (j - i) p 0) j n Hj). apply sumF_ext. intros i Hi. apply in_seq in Hi. rewrite H1 by lia. rewrite Hp. reflexivity.
Qed.
Print Assumptions C75_s1_waveforms.

Lemma fractions_sum emitted w m q : emission emitted -> sumF (fraction emitted w m) (seq 0 q) == emitted (qn (Nat.min q m) * w).
Proof.
  intros (F & Z & _). induction q as [|q IH]; [cbn; rewrite (F (qn 0 * w) 0) by (unfold qn; cbn; ring); rewrite Z; reflexivity|]. rewrite seq_S, sumF_app, IH. cbn [Nat.add]. rewrite sumF_cons. unfold fraction.
  change (sumF (fun k => if Nat.ltb k m then emitted (qn (S k) * w) - emitted (qn k * w) else 0) []) with 0. destruct (Nat.ltb_spec q m) as [H|H].
  - replace (Nat.min q m) with q by lia. replace (Nat.min (S q) m) with (S q) by lia. lra.
  - replace (Nat.min q m) with m by lia. replace (Nat.min (S q) m) with m by lia. lra.
Qed.
Lemma triangle (f g : nat -> Q) n : sumF (fun j => sumF (fun i => f i * g (j - i)%nat) (seq 0 (S j))) (seq 0 n) == sumF (fun i => f i * sumF g (seq 0 (n - i))) (seq 0 n).
Proof.
  induction n as [|n IH]; [reflexivity|]. rewrite (seq_S n 0), !sumF_app, IH. cbn [Nat.add]. rewrite !sumF_cons. change (sumF (fun j => sumF (fun i => f i * g (j - i)%nat) (seq 0 (S j))) []) with 0.
  change (sumF (fun i => f i * sumF g (seq 0 (S n - i))) []) with 0. replace (S n - n)%nat with 1%nat by lia.
  assert (A : sumF (fun i => f i * sumF g (seq 0 (S n - i))) (seq 0 n) == sumF (fun i => f i * sumF g (seq 0 (n - i))) (seq 0 n) + sumF (fun i => f i * g (n - i)%nat) (seq 0 n)).
  { rewrite <- sumF_plus. apply sumF_ext. intros i Hi. apply in_seq in Hi. replace (S n - i)%nat with (S (n - i)) by lia. rewrite (seq_S (n - i) 0), sumF_app, sumF_cons. change (sumF g []) with 0. cbn [Nat.add]. ring. }
  rewrite A. rewrite seq_S, sumF_app, sumF_cons. change (sumF (fun i => f i * g (n - i)%nat) []) with 0. rewrite Nat.sub_diag. cbn [seq Nat.add]. rewrite sumF_cons. change (sumF g []) with 0. ring.
Qed.

(** in total, each hit gives the light emitted until the end of the buffer, or in two microseconds; never more than its own *)
Theorem C75_total emitted pes_at_pmts times b w a n wfs : 0 < w -> b == qn n * w -> emission emitted ->
  (forall pes, In pes pes_at_pmts -> length pes = length times /\ forall q, In q pes -> 0 <= q) ->
  generate_s1_waveform emitted pes_at_pmts times b w a = Ok wfs ->
  Forall2 (fun pes wf => (forall q, In q wf -> 0 <= q) /\
      sumQ wf == sumF (fun i => light_in a w n i (combine times pes) * emitted (qn (Nat.min (n - i) (emission_bins b w)) * w)) (seq 0 n) /\
      sumQ wf <= sumF snd (filter (fun h => Qle_bool a (fst h) && Qle_bool (fst h) (a + b)) (combine times pes))) pes_at_pmts wfs.
Proof.
  intros W E Em H G. assert (N : pes_at_pmts <> []).
  { intros ->. unfold generate_s1_waveform in G. destruct (Qeqb w 0); discriminate. }
  destruct (C75_s1_waveforms emitted pes_at_pmts times b w a n W E Em N H) as (wfs' & G' & F). rewrite G in G'. injection G' as <-. clear G N.
  induction F as [|pes wf pess wfs (L & V) F IH]; constructor; [|apply IH; intros; apply H; now right]. destruct (H pes (or_introl eq_refl)) as (Lp & P).
  pose proof (combine_nonneg times pes P) as PH. destruct Em as (Fe & Z & Mono & One).
  assert (Qp : forall k, 0 <= qn k * w) by (intros k; apply Qmult_le_0_compat; [change 0 with (inject_Z 0); unfold qn; rewrite <- Zle_Qle; lia|lra]).
  assert (Fn : forall k, 0 <= fraction emitted w (emission_bins b w) k).
  { intros k. unfold fraction. destruct (Nat.ltb k _); [|lra]. assert (emitted (qn k * w) <= emitted (qn (S k) * w)); [|lra]. apply Mono; [apply Qp|]. apply Qmult_le_compat_r; [|lra]. unfold qn. rewrite <- Zle_Qle. lia. }
  assert (T : sumQ wf == sumF (fun i => light_in a w n i (combine times pes) * emitted (qn (Nat.min (n - i) (emission_bins b w)) * w)) (seq 0 n)).
  { rewrite sum_nth, L. rewrite (sumF_ext _ (fun j => sumF (fun i => light_in a w n i (combine times pes) * fraction emitted w (emission_bins b w) (j - i)) (seq 0 (S j)))) by (intros j Hj; apply in_seq in Hj; apply V; lia).
    rewrite (triangle (fun i => light_in a w n i (combine times pes)) (fraction emitted w (emission_bins b w)) n). apply sumF_ext. intros i _. rewrite fractions_sum; [reflexivity|]. unfold emission. auto. }
  split; [|split; [exact T|]].
  - intros q Hq. destruct (In_nth wf q 0 Hq) as (j & Hj & <-). rewrite V by lia. apply sumF_nonneg. intros i _. apply Qmult_le_0_compat; [now apply light_in_nonneg|apply Fn].
  - rewrite T. apply Qle_trans with (sumF (fun i => light_in a w n i (combine times pes)) (seq 0 n)).
    { apply sumF_le. intros i _. pose proof (One (qn (Nat.min (n - i) (emission_bins b w)) * w)). pose proof (light_in_nonneg a w n i _ PH). nra. }
    (* a time is in one bin at most *)
    unfold light_in. rewrite (sumF_ext _ (fun i => sumF (fun h => if is_in_bin a w n i (fst h) then snd h else 0) (combine times pes))) by (intros i _; apply sumF_filter_if).
    rewrite sumF_swap, sumF_filter_if. apply sumF_le. intros h Hh. specialize (PH h Hh). clear -PH W E. destruct h as [t q]. cbn [fst snd] in *.
    assert (U : forall i k, is_in_bin a w n i t = true -> is_in_bin a w n k t = true -> i = k).
    { assert (U : forall i k, (i < k)%nat -> is_in_bin a w n i t = true -> is_in_bin a w n k t = true -> False).
      { intros i k Hik Hi Hk. apply is_in_bin_spec in Hi, Hk. destruct Hi as (Hi1 & Hi2 & Hi3), Hk as (Hk1 & Hk2 & Hk3). destruct Hi3 as [Hi3|[Hi3 _]]; [|lia].
        assert (qn (S i) * w <= qn k * w) by (apply Qmult_le_compat_r; [unfold qn; rewrite <- Zle_Qle; lia|lra]). lra. }
      intros i k Hi Hk. destruct (lt_eq_lt_dec i k) as [[C|C]|C]; [exfalso; eauto|assumption|exfalso; eauto]. }
    assert (In1 : forall i, is_in_bin a w n i t = true -> Qle_bool a t && Qle_bool t (a + b) = true).
    { intros i Hi. apply is_in_bin_spec in Hi. destruct Hi as (H1 & H2 & H3). apply andb_true_iff. rewrite !Qle_bool_iff. assert (0 <= qn i * w) by (apply Qmult_le_0_compat; [change 0 with (inject_Z 0); unfold qn; rewrite <- Zle_Qle; lia|lra]).
      split; [lra|]. rewrite E. destruct H3 as [H3|[H3 H4]]; [|lra]. assert (qn (S i) * w <= qn n * w) by (apply Qmult_le_compat_r; [unfold qn; rewrite <- Zle_Qle; lia|lra]). lra. }
    destruct (existsb (fun i => is_in_bin a w n i t) (seq 0 n)) eqn:X.
    + apply existsb_exists in X. destruct X as (i & Hi & Xi). rewrite (In1 i Xi).
      assert (sumF (fun k => if is_in_bin a w n k t then q else 0) (seq 0 n) == q); [|lra].
      pose proof (seq_NoDup n 0) as ND. apply in_split in Hi. destruct Hi as (l1 & l2 & El). rewrite El in *. rewrite sumF_app, sumF_cons, Xi. apply NoDup_remove_2 in ND.
      rewrite (sumF_zero _ l1), (sumF_zero _ l2); [lra| |]; intros k Hk; destruct (is_in_bin a w n k t) eqn:Y; try reflexivity; exfalso; apply ND; rewrite (U i k Xi Y); apply in_or_app; auto.
    + rewrite sumF_zero; [destruct (_ && _)%bool; lra|]. intros k Hk. destruct (is_in_bin a w n k t) eqn:Y; [|reflexivity]. exfalso. assert (existsb (fun i => is_in_bin a w n i t) (seq 0 n) = true); [|congruence].
      apply existsb_exists. eauto.
Qed.
Print Assumptions C75_total.

(** the light seen in a bin comes from the hits before the end of that bin *)
Theorem C75_causal emitted p p' times times' b w a n wfs wfs' k j : 0 < w -> b == qn n * w -> emission emitted ->
  (forall pes, In pes p -> length pes = length times /\ forall q, In q pes -> 0 <= q) ->
  (forall pes, In pes p' -> length pes = length times' /\ forall q, In q pes -> 0 <= q) ->
  generate_s1_waveform emitted p times b w a = Ok wfs -> generate_s1_waveform emitted p' times' b w a = Ok wfs' ->
  (k < length p)%nat -> (k < length p')%nat -> (S j < n)%nat ->
  filter (fun h => Qltb (fst h) (a + qn (S j) * w)) (combine times (nth k p [])) = filter (fun h => Qltb (fst h) (a + qn (S j) * w)) (combine times' (nth k p' [])) ->
  nth j (nth k wfs []) 0 == nth j (nth k wfs' []) 0.
Proof.
  intros W E Em H H' G G' Hk Hk' Hj Same.
  assert (V : forall p times wfs, (forall pes, In pes p -> length pes = length times /\ forall q, In q pes -> 0 <= q) -> generate_s1_waveform emitted p times b w a = Ok wfs -> (k < length p)%nat ->
    nth j (nth k wfs []) 0 == sumF (fun i => light_in a w n i (combine times (nth k p [])) * fraction emitted w (emission_bins b w) (j - i)) (seq 0 (S j))).
  { clear - W E Em Hj. intros p times wfs H G Hk. assert (N : p <> []) by (intros ->; cbn in Hk; lia). destruct (C75_s1_waveforms emitted p times b w a n W E Em N H) as (wfs' & G' & F). rewrite G in G'. injection G' as <-.
    clear - F Hk Hj. revert k Hk. induction F as [|pes wf ps ws (_ & V) F IH]; intros k Hk; cbn [length] in Hk; [lia|]. destruct k as [|k]; cbn [nth]; [apply V; lia|apply IH; lia]. }
  rewrite (V p times wfs H G Hk), (V p' times' wfs' H' G' Hk'). apply sumF_ext. intros i Hi. apply in_seq in Hi.
  assert (L : forall hits, light_in a w n i hits = light_in a w n i (filter (fun h => Qltb (fst h) (a + qn (S j) * w)) hits)).
  { intros hits. unfold light_in. rewrite CorrMore.filter_filter'. f_equal. apply filter_ext. intros h. apply eq_true_iff_eq. rewrite andb_true_iff. split; [|tauto]. intros X. split; [|exact X]. apply is_in_bin_spec in X. destruct X as (_ & _ & [X|[X _]]); [|lia].
    apply Qltb_lt. assert (qn (S i) * w <= qn (S j) * w) by (apply Qmult_le_compat_r; [unfold qn; rewrite <- Zle_Qle; lia|lra]). lra. }
  rewrite (L (combine times (nth k p []))), (L (combine times' (nth k p' []))), Same. reflexivity.
Qed.
Print Assumptions C75_causal.

(** the photoelectrons of a hit in a PMT: its photons times the value of the light table for that PMT *)
Theorem C75_photoelectrons photons values nsensors s i : length photons = length values -> (s < nsensors)%nat -> (i < length photons)%nat ->
  length (s1_pes_at_pmts photons values nsensors) = nsensors /\ length (nth s (s1_pes_at_pmts photons values nsensors) []) = length photons /\
  nth i (nth s (s1_pes_at_pmts photons values nsensors) []) 0 = nth i photons 0 * nth s (nth i values []) 0.
Proof.
  intros L Hs Hi. unfold s1_pes_at_pmts. rewrite map_length, seq_length. split; [reflexivity|].
  match goal with |- context[map ?f (seq 0 nsensors)] => assert (E : nth s (map f (seq 0 nsensors)) [] = f s) end.
  { rewrite (nth_indep _ [] (map2 (fun n row => n * nth 0 row 0) photons values)) by (rewrite map_length, seq_length; assumption).
    rewrite (map_nth (fun s0 => map2 (fun n row => n * nth s0 row 0) photons values)). now rewrite seq_nth. }
  rewrite E. clear E Hs. split; [now apply length_map2_eq|]. revert values i L Hi. induction photons as [|n ps IH]; intros [|row vs] i L Hi; cbn in L, Hi; try lia. destruct i as [|i]; [reflexivity|]. cbn. apply IH; lia.
Qed.
Print Assumptions C75_photoelectrons.

(** findings: a buffer that is not a whole number of bins is refused, or gets light that no hit gave *)
Definition ramp (t : Q) : Q := Qmax 0 (Qmin 1 (t / 4)).
Theorem C75_length_refuted : generate_s1_waveform ramp [[1]] [0] (5 # 2) 1 0 = Err ValueError.
Proof. vm_compute. reflexivity. Qed.
Theorem C75_broadcast_refuted : exists wf, generate_s1_waveform ramp [[1]] [3 # 2] (5 # 2) 1 0 = Ok [wf] /\ map Qred wf = [0; 1 # 4; 1 # 4].
Proof. eexists. split; [vm_compute; reflexivity|reflexivity]. Qed.
Lemma ramp_emission : emission ramp.
Proof.
  split; [|split; [|split]].
  - intros s t E. unfold ramp. now rewrite E.
  - reflexivity.
  - intros s t Hs Ht. unfold ramp. apply Q.max_le_compat_l. apply Q.min_le_compat_l. unfold Qdiv. apply Qmult_le_compat_r; [assumption|discriminate].
  - intros t. unfold ramp. apply Q.max_lub; [discriminate|apply Q.le_min_l].
Qed.
(** two hits, two PMTs: the light of the second hit starts in its own bin *)
Example C75_example : exists wfs, generate_s1_waveform ramp (s1_pes_at_pmts [8; 4] [[1; 1 # 2]; [1; 2]] 2) [0; 5 # 2] 5 1 0 = Ok wfs /\ map (map Qred) wfs = [[2; 2; 3; 3; 1]; [1; 1; 3; 3; 2]].
Proof. eexists. split; [vm_compute; reflexivity|vm_compute; reflexivity]. Qed.
Example C75_hypotheses : 0 < 1 /\ 5 == qn 5 * 1 /\ emission ramp /\ forall pes, In pes (s1_pes_at_pmts [8; 4] [[1; 1 # 2]; [1; 2]] 2) -> length pes = 2%nat /\ forall q, In q pes -> 0 <= q.
Proof.
  split; [reflexivity|split; [reflexivity|split; [apply ramp_emission|]]]. intros pes H. vm_compute in H. destruct H as [<-|[<-|[]]]; (split; [reflexivity|]); intros q [<-|[<-|[]]]; discriminate.
Qed.
Print Assumptions C75_length_refuted.
Print Assumptions C75_broadcast_refuted.
