(** Properties C07-C12 and C29: peak search, rebinning, peak objects *)
From Verif Require Import Base PeaksModel PeaksSpec PeaksProofs PeaksMore PeaksFind PeaksThr.
Local Open Scope nat_scope.

(** ---------------- C07 ---------------- *)
Theorem C07_split_is_the_gap_partition :
  forall (indices : list nat) (stride : Z), indices <> [] ->
  gap_partition stride indices (split_in_peaks indices stride) /\
  (forall gs, gap_partition stride indices gs -> gs = split_in_peaks indices stride).
Proof.
  intros l s H. split; [now apply split_gap_partition|]. intros gs G.
  eapply gap_partition_unique; [exact G|]. now apply split_gap_partition.
Qed.
Print Assumptions C07_split_is_the_gap_partition.
Example C07_example : split_in_peaks [1; 2; 4; 8; 9; 15] 2 = [[1; 2; 4]; [8; 9]; [15]].
Proof. reflexivity. Qed.

(** ---------------- C08 ---------------- *)
Theorem C08_found_peaks :
  forall ccwfs index time len stride rebin_stride pmt_ids sipm_ids pw sw sipms sel,
  index <> [] -> StronglySorted lt index -> (forall i, In i index -> i < cols ccwfs) ->
  is_mat ccwfs -> length pmt_ids = length (rows ccwfs) -> (0 < pw)%Q ->
  s2_setup sipms ccwfs index sipm_ids rebin_stride pw sw sel ->
  exists pks gs q,
    find_peaks ccwfs index time len stride rebin_stride pmt_ids sipm_ids pw sw sipms sel = Ok pks /\
    gap_partition stride index gs /\ (forall g, q g = true <-> qualifies time len pw g) /\
    Forall2 (fun g pk => exists a b, starts_at g a /\ ends_at g b /\ a <= b /\ made_of ccwfs pw pmt_ids a b pk) (filter q gs) pks /\
    (forall i j p1 p2, (i < j)%nat -> nth_error pks i = Some p1 -> nth_error pks j = Some p2 ->
       forall t1 t2, In t1 (p_times p1) -> In t2 (p_times p2) -> t1 < t2)%Q.
Proof.
  intros ccwfs index time len stride rebin_stride pmt_ids sipm_ids pw sw sipms sel H1 H2 H3 H4 H5 H6 H7.
  destruct (find_peaks_spec ccwfs index time len stride rebin_stride pmt_ids sipm_ids pw sw sipms sel H1 H2 H3 H4 H5 H6 H7)
    as (pks & gs & q & E & G & Q' & O & F).
  exists pks, gs, q. do 4 (split; [assumption|]).
  intros i j p1 p2 Hij Hi Hj t1 t2 Ht1 Ht2.
  assert (K : forall k p, nth_error pks k = Some p -> exists g a b, nth_error (filter q gs) k = Some g /\
     starts_at g a /\ ends_at g b /\ a <= b /\ made_of ccwfs pw pmt_ids a b p).
  { clear -F. induction F as [|g pk l m H F IH]; intros k p Hk; [now destruct k|]. destruct k as [|k].
    - inversion Hk; subst. destruct H as (a & b & H). exists g, a, b. split; [reflexivity|tauto].
    - now apply IH. }
  destruct (K i p1 Hi) as (g1 & a1 & b1 & N1 & S1 & E1 & _ & _ & _ & _ & _ & T1).
  destruct (K j p2 Hj) as (g2 & a2 & b2 & N2 & S2 & E2 & _ & _ & _ & _ & _ & T2).
  assert (L : b1 < a2).
  { apply (O i j g1 g2 Hij N1 N2).
    - destruct E1 as (u & ->). apply in_app_iff. right; now left.
    - destruct S2 as (u & ->). now left. }
  specialize (T1 t1 Ht1). specialize (T2 t2 Ht2). pose proof (qn_lt b1 a2 L). nra.
Qed.
Print Assumptions C08_found_peaks.

(** The search itself fails on a waveform without any sample above threshold. *)
Theorem C08_empty_index_refuted :
  forall ccwfs time len stride rebin_stride pmt_ids sipm_ids pw sw sipms sel,
  find_peaks ccwfs [] time len stride rebin_stride pmt_ids sipm_ids pw sw sipms sel = Err IndexError.
Proof. reflexivity. Qed.
Print Assumptions C08_empty_index_refuted.

Definition ex_wf (l : list nat) : list Q := map qn l.
Definition ex_ccwf : mat := {| cols := 10; rows := [ex_wf [0;3;4;0;0;0;5;6;7;1]; ex_wf [0;1;0;0;0;0;2;2;0;1]] |}.
Definition ex_sipm : mat := {| cols := 5; rows := [ex_wf [1;2;3;4;5]; ex_wf [0;0;1;1;0]; ex_wf [0;0;0;2;2]] |}.
Definition ex_sel (m : mat) := select_wfs_above_time_integrated_thr m 3.

Lemma where_from_bound {A} (p : A -> bool) l k i : In i (where_from k p l) -> k <= i < k + length l.
Proof.
  revert k; induction l as [|a l IH]; cbn; intros k H; [easy|].
  destruct (p a); [destruct H as [->|H]; [lia|]|]; specialize (IH (S k) H); lia.
Qed.
Lemma where_from_length {A} (p : A -> bool) l k : length (where_from k p l) = length (filter p l).
Proof. revert k; induction l as [|a l IH]; cbn; intros k; [reflexivity|]. destruct (p a); cbn; now rewrite IH. Qed.

Lemma threshold_selection_good thr : good_selection (fun m => select_wfs_above_time_integrated_thr m thr).
Proof.
  intros m Hm. cbn. split; [apply where_from_length|]. split; [reflexivity|].
  apply Forall_forall. intros i Hi. apply where_from_bound in Hi. lia.
Qed.

Lemma ex_readout : readout_ok ex_ccwf ex_sipm [100; 101; 102] 2 25 50 ex_sel 2 1.
Proof.
  unfold readout_ok. repeat split; try reflexivity; try (cbn; lia).
  - repeat constructor.
  - apply where_from_length.
  - apply Forall_forall. intros i Hi. apply where_from_bound in Hi. lia.
Qed.

Example C08_example :
  s2_setup (Some ex_sipm) ex_ccwf [1; 2; 6; 7; 8; 9] [100; 101; 102] 2 25 50 ex_sel /\
  StronglySorted lt [1; 2; 6; 7; 8; 9] /\ is_mat ex_ccwf /\
  match find_peaks ex_ccwf [1; 2; 6; 7; 8; 9] {| mn := 0; mx := 1000 |} {| mn := 2; mx := 4 |} 1 2 [7; 8] [100; 101; 102]
                   25 50 (Some ex_sipm) ex_sel with
  | Ok [p1; p2] => map Qred (p_times p1) = [25; 50]%Q /\ r_ids (p_sipms p1) = [100] /\ length (p_times p2) = 2
  | _ => False
  end.
Proof.
  split; [|split; [|split]].
  - split; [exists 2, 1; exact ex_readout|]. intros i Hi. cbn in Hi.
    repeat (destruct Hi as [<-|Hi]; [vm_compute; reflexivity|]). easy.
  - repeat constructor.
  - repeat constructor.
  - vm_compute. repeat split.
Qed.

(** ---------------- C09 ---------------- *)
(** [s] samples are merged per bin; a stride below 2 means no merging. *)
Theorem C09_rebin_conserves :
  forall times widths wfs stride,
  is_mat wfs -> cols wfs = length times -> length widths = length times ->
  let s := Z.to_nat (Z.max 1 stride) in
  exists ts ws m, rebin_times_and_waveforms times widths wfs stride = Ok (ts, ws, m) /\
    length times <= s * length ts < length times + s /\ length ws = length ts /\ cols m = length ts /\ is_mat m /\
    ((stride < 2)%Z -> ts = times /\ ws = widths /\ m = wfs) /\
    (sumQ ws == sumQ widths)%Q /\ same_totals wfs m /\
    (forall k, (k < length ts)%nat -> nth k ws 0 == charge_in (s * k)%nat (s * (k + 1))%nat widths)%Q /\
    Forall2 (fun r r' => forall k, (k < length ts)%nat -> nth k r' 0 == charge_in (s * k)%nat (s * (k + 1))%nat r)%Q (rows wfs) (rows m).
Proof.
  intros times widths wfs stride Hm Hc Hw s. destruct (rebin_spec times widths wfs stride Hm Hc Hw) as (ts & ws & m & E & R).
  fold (step stride) in s. subst s.
  destruct (rebinned_totals _ _ _ _ _ _ _ (step_pos stride) Hm Hc Hw R) as [T1 T2]. destruct R as [Rl Rwl Rcl Rmat RW RR RT].
  exists ts, ws, m. split; [exact E|]. split; [rewrite Rl; apply cdiv_spec, step_pos|].
  do 3 (split; [assumption|]). split.
  { intros L. unfold rebin_times_and_waveforms in E. apply Z.ltb_lt in L. rewrite L in E. now inversion E. }
  split; [assumption|]. split; [assumption|]. split.
  - intros k Hk. rewrite charge_in_slice. now apply RW.
  - eapply Forall2_impl; [|exact RR]. cbn beta. intros r r' H k Hk. rewrite charge_in_slice. now apply H.
Qed.
Print Assumptions C09_rebin_conserves.
Example C09_example :
  match rebin_times_and_waveforms (ex_wf [0;1;2;3;4]) (ex_wf [1;1;1;1;1]) {| cols := 5; rows := [ex_wf [1;2;3;4;5]; ex_wf [0;0;0;9;1]] |} 2 with
  | Ok (ts, ws, m) => map Qred ws = [2; 2; 1]%Q /\ map (map Qred) (rows m) = [[3; 7; 5]; [0; 9; 1]]%Q
  | Err _ => False
  end.
Proof. vm_compute. auto. Qed.

(** ---------------- C10 ---------------- *)
Theorem C10_rebinned_times_inside_and_ordered :
  forall times widths wfs stride ts ws m,
  is_mat wfs -> cols wfs = length times -> length widths = length times ->
  rebin_times_and_waveforms times widths wfs stride = Ok (ts, ws, m) ->
  let s := Z.to_nat (Z.max 1 stride) in
  (forall k lo hi, k < length ts ->
     (forall i, (s * k <= i < s * (k + 1))%nat -> (i < length times)%nat -> lo <= nth i times 0 <= hi)%Q ->
     (lo <= nth k ts 0 <= hi)%Q) /\
  ((forall i j, (i <= j < length times)%nat -> nth i times 0 <= nth j times 0)%Q ->
   (forall i j, (i <= j < length ts)%nat -> nth i ts 0 <= nth j ts 0)%Q).
Proof.
  intros times widths wfs stride ts ws m Hm Hc Hw E s.
  destruct (rebin_spec times widths wfs stride Hm Hc Hw) as (ts' & ws' & m' & E' & R).
  rewrite E in E'. inversion E'; subst ts' ws' m'. split.
  - intros k lo hi Hk H. apply (rb_time _ _ _ _ _ _ _ R k Hk). left. exact H.
  - intros H. eapply rebinned_sorted; [apply (step_pos stride)|exact R|exact H].
Qed.
Print Assumptions C10_rebinned_times_inside_and_ordered.
Example C10_example :
  match rebin_times_and_waveforms (ex_wf [0;1;2;3;4]) (ex_wf [1;1;1;1;1]) {| cols := 5; rows := [[-1; -2; 3; 1; -2]]%Q |} 2 with
  | Ok (ts, _, _) => map Qred ts = [1 # 2; 9 # 4; 4]%Q
  | Err _ => False
  end.
Proof. reflexivity. Qed.

(** A peak built with padding keeps its first time inside its bin only thanks to a
    positive first sample (see C08): otherwise the padding zeros enter the mean. *)
Theorem C10_padded_time_refuted :
  exists g ccwf sipms pk, is_mat ccwf /\ ends g = Ok (3, 3) /\
  build_peak g (map (fun i => qn i * 25)%Q (seq 0 4)) (repeat 25%Q 4) ccwf [0] [0] 2 (Some sipms) 25 50 ex_sel = Ok pk /\
  exists t, p_times pk = [t] /\ (t < 3 * 25)%Q.
Proof.
  exists [3], {| cols := 4; rows := [[5; 5; 5; -1]%Q] |}, {| cols := 2; rows := [[1; 1]%Q] |}.
  eexists. split; [repeat constructor|]. split; [reflexivity|]. split; [vm_compute; reflexivity|].
  eexists. split; [reflexivity|]. vm_compute. reflexivity.
Qed.
Print Assumptions C10_padded_time_refuted.

(** ---------------- C11 ---------------- *)
(** PMT bin k of an S2 and SiPM bin k (before the SiPM selection) integrate the same
    absolute time interval: SiPM samples a/r + m*k .. a/r + m*(k+1) and the PMT
    samples they stand for, restricted to the peak a..b. *)
Theorem C11_pmt_sipm_aligned :
  forall ccwfs sm index a b pmt_ids sipm_ids rebin_stride pw sw sel r m,
  readout_ok ccwfs sm sipm_ids rebin_stride pw sw sel r m ->
  is_mat ccwfs -> length pmt_ids = length (rows ccwfs) ->
  starts_at index a -> ends_at index b -> a <= b < cols ccwfs ->
  exists pk reb,
    build_peak index (map (fun i => qn i * pw)%Q (seq 0 (cols ccwfs))) (repeat pw (cols ccwfs)) ccwfs
               pmt_ids sipm_ids rebin_stride (Some sm) pw sw sel = Ok pk /\
    cols (r_wfs (p_pmts pk)) = length (p_times pk) /\ cols (r_wfs (p_sipms pk)) = length (p_times pk) /\
    r_wfs (p_sipms pk) = snd (sel reb) /\
    Forall2 (fun i id => nth_error sipm_ids i = Some id) (fst (sel reb)) (r_ids (p_sipms pk)) /\
    Forall2 (fun w w' => forall k, (k < length (p_times pk))%nat ->
       nth k w' 0 == charge_in (Nat.max a (r * (a / r + m * k)))%nat (Nat.min (b + 1) (r * (a / r + m * (k + 1))))%nat w)%Q
       (rows ccwfs) (rows (r_wfs (p_pmts pk))) /\
    Forall2 (fun w w' => forall k, (k < length (p_times pk))%nat ->
       nth k w' 0 == charge_in (a / r + m * k)%nat (Nat.min (b / r + 1) (a / r + m * (k + 1)))%nat w)%Q
       (rows sm) (rows reb).
Proof.
  intros ccwfs sm g a b pmt_ids sipm_ids rs pw sw sel r m (Hr & Hm & Hfl & Hst & Hsm & Hcl & Hsid & Hsel) Hmat Hid Hs He Hab.
  subst rs. assert (E : ends g = Ok (a, b)) by now apply ends_spec.
  destruct (build_peak_with_sipms g a b (map (fun i => qn i * pw)%Q (seq 0 (cols ccwfs))) (repeat pw (cols ccwfs)) ccwfs pmt_ids sipm_ids sm pw sw sel r m)
    as (pk & reb & tss & wss & Eb & Ei & W & Ids & P & Ps & L); try assumption; try lia.
  { rewrite map_length, seq_length. lia. } { rewrite repeat_length. lia. } { apply Nat.div_lt_upper_bound; lia. }
  assert (Ltss : length tss = length (p_times pk)) by (rewrite <- L; symmetry; apply (pk_cols _ _ _ _ _ _ _ _ _ _ Ps)).
  destruct (Hsel reb (pk_mat _ _ _ _ _ _ _ _ _ _ Ps)) as (G1 & G2 & G3).
  exists pk, reb. split; [exact Eb|]. split; [apply (pk_cols _ _ _ _ _ _ _ _ _ _ P)|]. split; [rewrite W, G2; exact L|].
  split; [assumption|]. split; [assumption|].
  pose proof (Nat.div_mod a r ltac:(lia)) as D. pose proof (Nat.mod_upper_bound a r ltac:(lia)) as U. split.
  - eapply Forall2_impl; [|apply (pk_rows _ _ _ _ _ _ _ _ _ _ P)]. cbn beta. intros w w' H k Hk. rewrite (H k Hk).
    unfold bin_lo, bin_hi.
    assert (E1 : a + (r * m * k - a mod r) = Nat.max a (r * (a / r + m * k))).
    { replace (r * m * k) with (r * (m * k)) by lia. replace (r * (a / r + m * k)) with (r * (a / r) + r * (m * k)) by lia. lia. }
    assert (E2 : a + (r * m * (k + 1) - a mod r) = r * (a / r + m * (k + 1))).
    { replace (r * m * (k + 1)) with (r * (m * (k + 1))) by lia. replace (r * (a / r + m * (k + 1))) with (r * (a / r) + r * (m * (k + 1))) by lia.
      assert (r <= r * (m * (k + 1))) by nia. lia. }
    rewrite E1, E2. reflexivity.
  - eapply Forall2_impl; [|apply (pk_rows _ _ _ _ _ _ _ _ _ _ Ps)]. cbn beta. intros w w' H k Hk. rewrite Ltss in H.
    rewrite (H k Hk). unfold bin_lo, bin_hi. rewrite !Nat.sub_0_r. reflexivity.
Qed.
Print Assumptions C11_pmt_sipm_aligned.
Example C11_example : readout_ok ex_ccwf ex_sipm [100; 101; 102] 2 25 50 ex_sel 2 1 /\
  starts_at [6; 7; 8; 9] 6 /\ ends_at [6; 7; 8; 9] 9.
Proof. split; [exact ex_readout|]. split; [exists [7; 8; 9]; reflexivity|exists [6; 7; 8]; reflexivity]. Qed.

(** With a rebinning factor that is not a multiple of the ratio the two planes can
    disagree and the S2 cannot be built. *)
Theorem C11_misaligned_stride_refuted :
  exists ccwfs sm index rebin_stride, is_mat ccwfs /\ is_mat sm /\ cols ccwfs <= 2 * cols sm /\
  build_peak index (map (fun i => qn i * 25)%Q (seq 0 (cols ccwfs))) (repeat 25%Q (cols ccwfs)) ccwfs
             [0] [0] rebin_stride (Some sm) 25 50 (fun m => (seq 0 (length (rows m)), m)) = Err ValueError.
Proof.
  exists {| cols := 8; rows := [ex_wf [1;1;1;1;1;1;1;1]] |}, {| cols := 4; rows := [ex_wf [1;1;1;1]] |}, (seq 0 8), 3%Z.
  split; [repeat constructor|]. split; [repeat constructor|]. split; [cbn; lia|]. vm_compute. reflexivity.
Qed.
Print Assumptions C11_misaligned_stride_refuted.

(** ---------------- C12 ---------------- *)
Theorem C12_peak_accepted_iff_consistent :
  forall times widths pmts sipms,
  match mk_peak times widths pmts sipms with
  | Ok pk => pk = {| p_times := times; p_widths := widths; p_pmts := pmts; p_sipms := sipms |} /\
             0 < length times /\ cols (r_wfs pmts) = length times /\
             (cols (r_wfs sipms) = 0 \/ cols (r_wfs sipms) = length times)
  | Err ValueError => 0 < length times /\ (cols (r_wfs pmts) <> length times \/
                      (cols (r_wfs sipms) <> 0 /\ cols (r_wfs sipms) <> length times))
  | Err AttributeError => times = []
  | Err _ => False
  end.
Proof.
  intros. unfold mk_peak, check_valid_input. destruct (Nat.eqb_spec (length times) 0) as [E|E].
  - cbn. now destruct times.
  - destruct (Nat.eqb_spec (length times) (cols (r_wfs pmts))) as [E1|E1]; cbn [negb orb]; [|cbn; lia].
    destruct (Nat.eqb_spec (length times) (cols (r_wfs sipms))) as [E2|E2]; cbn [negb andb]; [cbn; auto 6 with arith|].
    + split; [reflexivity|]. lia.
    + destruct (Nat.eqb_spec (cols (r_wfs sipms)) 0); cbn [negb rbind]; [split; [reflexivity|]; lia|lia].
Qed.
Print Assumptions C12_peak_accepted_iff_consistent.

(** the documented ValueError for an empty peak never comes out *)
Theorem C12_empty_peak_error_refuted :
  forall widths pmts sipms, mk_peak [] widths pmts sipms = Err AttributeError.
Proof. reflexivity. Qed.
Print Assumptions C12_empty_peak_error_refuted.

Theorem C12_peak_attributes :
  forall p, consistent p ->
  (exists i, i < length (p_times p) /\ time_at_max_energy p = nth i (p_times p) 0%Q /\
             height p = col_sum (r_wfs (p_pmts p)) i /\
             forall j, j < length (p_times p) -> (col_sum (r_wfs (p_pmts p)) j <= height p)%Q) /\
  (forall thr, energy_above_threshold p thr == sumF (fun x => if Qltb thr x then x else 0)
                 (map (col_sum (r_wfs (p_pmts p))) (seq 0 (length (p_times p)))))%Q /\
  (forall t1 t2, 0 <= t1 -> t1 <= t2 -> energy_above_threshold p t2 <= energy_above_threshold p t1)%Q /\
  (forall t1 t2, 0 <= t1 -> t1 <= t2 -> charge_above_threshold p t2 <= charge_above_threshold p t1)%Q /\
  ((forall w, In w (p_widths p) -> 0 <= w) -> forall t1 t2, t1 <= t2 -> width_above_threshold p t2 <= width_above_threshold p t1)%Q /\
  (forall thr, 0 <= thr -> 0 <= rms2_above_threshold p thr)%Q.
Proof.
  intros p (M1 & M2 & L0 & Lw & Lp & Ip & Is & Ls). split; [|split; [|split; [|split; [|split]]]].
  - destruct (maximum_spec (pmt_sum p)) as (H1 & H2 & H3).
    { intros E. assert (length (pmt_sum p) = length (p_times p)) by (unfold pmt_sum; rewrite length_sum_over_sensors; assumption).
      rewrite E in H. cbn in H. lia. }
    assert (N : forall i, i < length (p_times p) -> nth i (pmt_sum p) 0%Q = col_sum (r_wfs (p_pmts p)) i).
    { intros i Hi. unfold pmt_sum, sum_over_sensors. rewrite (nth_indep _ 0%Q (col_sum (r_wfs (p_pmts p)) 0)) by (rewrite map_length, seq_length; lia).
      rewrite map_nth. rewrite seq_nth by lia. reflexivity. }
    assert (LL : length (pmt_sum p) = length (p_times p)) by (unfold pmt_sum; rewrite length_sum_over_sensors; assumption).
    exists (argmax (pmt_sum p)). rewrite LL in H1. split; [assumption|]. split; [reflexivity|]. split.
    + rewrite <- N by assumption. symmetry. exact H2.
    + intros j Hj. rewrite <- N by assumption. apply H3. apply nth_In. lia.
  - intros thr. unfold energy_above_threshold. rewrite sumQ_take_above. unfold pmt_sum, sum_over_sensors. rewrite Lp. reflexivity.
  - apply energy_antitone.
  - apply charge_antitone.
  - intros H t1 t2. now apply width_antitone.
  - apply rms2_nonneg.
Qed.
Print Assumptions C12_peak_attributes.

(** width: from the first to the last sample above threshold *)
Theorem C12_width :
  forall p thr i j, consistent p -> i <= j ->
  (thr < col_sum (r_wfs (p_pmts p)) i)%Q -> (thr < col_sum (r_wfs (p_pmts p)) j)%Q -> j < length (p_times p) ->
  (forall k, k < length (p_times p) -> (thr < col_sum (r_wfs (p_pmts p)) k)%Q -> i <= k <= j) ->
  (width_above_threshold p thr == charge_in i (j + 1) (p_widths p))%Q.
Proof.
  intros p thr i j (M1 & M2 & L0 & Lw & Lp & _) Hij Hi Hj Hjl K.
  assert (N : forall i, i < length (p_times p) -> nth i (pmt_sum p) 0%Q = col_sum (r_wfs (p_pmts p)) i).
  { intros k Hk. unfold pmt_sum, sum_over_sensors. rewrite (nth_indep _ 0%Q (col_sum (r_wfs (p_pmts p)) 0)) by (rewrite map_length, seq_length; lia).
    rewrite map_nth. rewrite seq_nth by lia. reflexivity. }
  assert (LL : length (pmt_sum p) = length (p_times p)) by (unfold pmt_sum; rewrite length_sum_over_sensors; assumption).
  assert (SS : StronglySorted lt (above (pmt_sum p) thr)) by apply where_from_sorted.
  assert (Ii : In i (above (pmt_sum p) thr)) by (apply above_in; rewrite N by lia; split; [lia|assumption]).
  assert (Ij : In j (above (pmt_sum p) thr)) by (apply above_in; rewrite N by lia; split; [lia|assumption]).
  unfold width_above_threshold. destruct (ends (above (pmt_sum p) thr)) as [[a b]|e] eqn:E.
  - destruct (SS_ends _ _ _ SS E) as [Hab H]. destruct (ends_in _ _ _ E) as [Ia Ib].
    pose proof (H i Ii). pose proof (H j Ij). apply above_in in Ia, Ib. rewrite LL in Ia, Ib.
    rewrite N in Ia by tauto. rewrite N in Ib by tauto. pose proof (K a (proj1 Ia) (proj2 Ia)). pose proof (K b (proj1 Ib) (proj2 Ib)).
    assert (a = i) by lia. assert (b = j) by lia. subst. now rewrite charge_in_slice.
  - destruct (above (pmt_sum p) thr); [easy|discriminate].
Qed.
Print Assumptions C12_width.

Definition ex_peak : peak :=
  {| p_times := ex_wf [10; 11; 12; 13]; p_widths := ex_wf [1; 1; 1; 2];
     p_pmts := {| r_ids := [0; 1]; r_wfs := {| cols := 4; rows := [ex_wf [1; 5; 0; 2]; ex_wf [0; 3; 0; 1]] |} |};
     p_sipms := {| r_ids := [1000]; r_wfs := {| cols := 4; rows := [ex_wf [2; 0; 1; 0]] |} |} |}.
Example C12_example : consistent ex_peak /\ Qred (time_at_max_energy ex_peak) = 11%Q /\ Qred (height ex_peak) = 8%Q /\
  Qred (width_above_threshold ex_peak 2) = 4%Q /\ Qred (energy_above_threshold ex_peak 0) = 12%Q.
Proof.
  split; [|vm_compute; auto]. unfold consistent. cbn. repeat split; try lia; repeat constructor.
Qed.

(** ---------------- C29 ---------------- *)
Theorem C29_threshold_slices :
  forall wf thr, wf <> [] ->
  let sl := get_threshold_slices wf thr in
  covers 0 (length wf) sl /\
  Forall (fun s => just_reaches wf thr (fst s) (snd s)) (removelast sl) /\
  (exists u a d, sl = u ++ [(a, d)] /\ final_piece wf thr a d) /\
  ((forall x, In x wf -> 0 <= x)%Q -> 1 < length sl -> Forall (fun s => thr <= charge_in (fst s) (snd s) wf)%Q sl).
Proof.
  intros wf thr H sl. destruct (threshold_slices_spec wf thr H) as (C & N & R & F & P).
  split; [exact C|]. split; [exact R|]. split; [|exact P].
  destruct (exists_last N) as (u & [a d] & E). exists u, a, d. split; [exact E|].
  fold sl in E, F. rewrite E, last_app_one in F. exact F.
Qed.
Print Assumptions C29_threshold_slices.

Theorem C29_rebin_peak_conserves :
  forall p md, consistent p ->
  exists p', rebin_peak p md = Ok p' /\ consistent p' /\
    r_ids (p_pmts p') = r_ids (p_pmts p) /\ r_ids (p_sipms p') = r_ids (p_sipms p) /\
    (sumQ (p_widths p') == sumQ (p_widths p))%Q /\ same_totals (r_wfs (p_pmts p)) (r_wfs (p_pmts p')) /\
    same_totals (r_wfs (p_sipms p)) (r_wfs (p_sipms p')).
Proof. intros. now apply rebin_peak_spec. Qed.
Print Assumptions C29_rebin_peak_conserves.

(** With negative samples a merged final slice can be below threshold. *)
Theorem C29_negative_charge_refuted :
  exists wf thr, 1 < length (get_threshold_slices wf thr) /\
  exists s, In s (get_threshold_slices wf thr) /\ (charge_in (fst s) (snd s) wf < thr)%Q.
Proof.
  exists [5; 5; -3]%Q, 5%Q. split; [vm_compute; lia|]. exists (1, 3). split; [vm_compute; auto|]. vm_compute. reflexivity.
Qed.
Print Assumptions C29_negative_charge_refuted.

Example C29_example : get_threshold_slices (ex_wf [1;2;3;0;4;1;1]) 3 = [(0, 2); (2, 3); (3, 7)] /\
  consistent ex_peak.
Proof. split; [vm_compute; reflexivity|apply C12_example]. Qed.
