(** Lemmas for C93 *)
From Verif Require Import Base Arrays PeaksModel PeaksSpec PeaksProofs PeaksMore PeaksFind PeaksProps WfmModel WfmSpec WfmProps CalibModel CalibSpec CalibProps CalibBlr IreneModel IreneSpec.
Local Open Scope nat_scope.

(** ---- sensors in use ---- *)
Lemma select_in_use {A B} (f : A -> bool) (l : list A) (w : list B) : length l = length w ->
  select (map f l) w = map snd (filter (fun x => f (fst x)) (combine l w)) /\
  filter f l = map fst (filter (fun x => f (fst x)) (combine l w)).
Proof.
  revert w. induction l as [|a l IH]; intros [|b w] L; try easy. cbn in L. destruct (IH w ltac:(lia)) as [I1 I2]. cbn [map select combine filter fst].
  destruct (f a); cbn [map fst snd]; split; congruence.
Qed.
Lemma combine_map_fst_snd {A B} (l : list (A * B)) : combine (map fst l) (map snd l) = l.
Proof. induction l as [|[a b] l IH]; [reflexivity|]. cbn. now rewrite IH. Qed.

Lemma numbered_in_use {A B} (f : A -> bool) (l : list A) (w : list B) k : length l = length w ->
  let u := filter (fun x => f (fst (snd x))) (combine (seq k (length l)) (combine l w)) in
  map snd u = filter (fun x => f (fst x)) (combine l w) /\ map fst u = where_from k f l.
Proof.
  revert w k. induction l as [|a l IH]; intros [|b w] k L; try easy. cbn in L. destruct (IH w (S k) ltac:(lia)) as [I1 I2].
  cbn [length seq combine filter fst snd where_from]. destruct (f a); cbn [map fst snd]; split; congruence.
Qed.

Lemma where_from_all {A} (f : A -> bool) l k : Forall (fun a => f a = true) l -> where_from k f l = seq k (length l).
Proof. revert k. induction l as [|a l IH]; intros k H; [reflexivity|]. inversion H as [|? ? Ha Hl]; subst. cbn. rewrite Ha. f_equal. now apply IH. Qed.

(** ---- lists ---- *)
Lemma Forall2_and' {A B} (P R : A -> B -> Prop) l m : Forall2 P l m -> Forall2 R l m -> Forall2 (fun a b => P a b /\ R a b) l m.
Proof. intros H. induction H; intros K; inversion K; subst; constructor; auto. Qed.
Lemma Forall2_map2 {A B C} (f : A -> B -> C) l m : length l = length m -> Forall2 (fun ab c => c = f (fst ab) (snd ab)) (combine l m) (map2 f l m).
Proof. revert m. induction l as [|a l IH]; intros [|b m] L; try easy; constructor; [reflexivity|]. apply IH. cbn in L. lia. Qed.
Lemma nth_error_map_inv {A B} (f : A -> B) l i y : nth_error (map f l) i = Some y -> exists x, nth_error l i = Some x /\ y = f x.
Proof. rewrite nth_error_map. destruct (nth_error l i) as [x|]; [|easy]. cbn. intros E. exists x. split; congruence. Qed.
Lemma forall2_nth_error {A B} (R : A -> B -> Prop) l m i a : Forall2 R l m -> nth_error l i = Some a -> exists b, nth_error m i = Some b /\ R a b.
Proof. intros H. revert i. induction H as [|x y l m Hx H IH]; intros [|i] E; try easy; cbn in *; [exists y; split; congruence|now apply IH]. Qed.
Lemma forall2_nth_error_r {A B} (R : A -> B -> Prop) l m i b : Forall2 R l m -> nth_error m i = Some b -> exists a, nth_error l i = Some a /\ R a b.
Proof. intros H. revert i. induction H as [|x y l m Hx H IH]; intros [|i] E; try easy; cbn in *; [exists x; split; congruence|now apply IH]. Qed.
Lemma Qltb_comp a b x y : (a == b)%Q -> (x == y)%Q -> Qltb a x = Qltb b y.
Proof. intros H K. destruct (Qltb_spec a x), (Qltb_spec b y); try reflexivity; exfalso; rewrite H, K in *; lra. Qed.

Lemma rmap_Forall2 {A B} (f : A -> result B) l : (forall a, In a l -> exists b, f a = Ok b) -> exists bs, rmap f l = Ok bs /\ Forall2 (fun a b => f a = Ok b) l bs.
Proof.
  induction l as [|a l IH]; intros H; [exists []; split; [reflexivity|constructor]|]. destruct (H a (or_introl eq_refl)) as (b & Hb).
  destruct IH as (bs & E & F); [intros x Hx; apply H; now right|]. exists (b :: bs). cbn. rewrite Hb. cbn. rewrite E. split; [reflexivity|]. now constructor.
Qed.
Lemma rmap_ext_in {A B} (f g : A -> result B) l : (forall a, In a l -> f a = g a) -> rmap f l = rmap g l.
Proof. induction l as [|a l IH]; intros H; [reflexivity|]. cbn. rewrite (H a (or_introl eq_refl)). destruct (g a); [|reflexivity]. cbn. rewrite IH; [reflexivity|]. intros x Hx. apply H. now right. Qed.

(** ---- the selections ---- *)
Definition keep_row (c : cutting) (i : nat) (row : list Q) : list Q := map (kept c i) row.
Definition total (sel : mat -> result (list nat * mat)) (m : mat) : list nat * mat :=
  match sel m with Ok x => x | Err _ => ([], {| cols := cols m; rows := [] |}) end.

Lemma where_filter_rows {A} (p : A -> bool) (l : list A) k d : Forall2 (fun i row => row = nth (i - k) l d) (where_from k p l) (filter p l).
Proof.
  revert k. induction l as [|a l IH]; intros k; [constructor|]. cbn. assert (G : Forall2 (fun i row => row = nth (i - k) (a :: l) d) (where_from (S k) p l) (filter p l)).
  { eapply Forall2_impl_in; [|exact (IH (S k))]. intros i row Hi H. cbn beta in *. apply where_from_sorted in Hi. replace (i - k) with (S (i - S k)) by lia. exact H. }
  destruct (p a); [constructor; [now rewrite Nat.sub_diag|exact G]|exact G].
Qed.

(** what the three selections have in common, for waveforms of [n] SiPMs *)
Record selects (c : cutting) (m : mat) (idx : list nat) (out : mat) : Prop := {
  se_len : length idx = length (rows out);
  se_cols : cols out = cols m;
  se_in : Forall (fun i => i < length (rows m)) idx;
  se_sorted : StronglySorted lt idx;
  se_rows : Forall2 (fun i row => row = keep_row c i (nth i (rows m) [])) idx (rows out);
  se_which : match c with
             | CutThreshold _ thr => forall i, In i idx <-> i < length (rows m) /\ (thr <= sumQ (keep_row c i (nth i (rows m) [])))%Q
             | CutPyrrha _ _ _ => True
             | NoCut => idx = seq 0 (length (rows m))
             end }.

Lemma charge_threshold_selects c m thrs thr : length thrs = length (rows m) ->
  (forall i x, i < length (rows m) -> kept c i x = if Qltb (nth i thrs 0%Q) x then x else 0%Q) ->
  (match c with CutThreshold _ t => t = thr | _ => False end) ->
  exists idx out, charge_threshold_method m thrs thr = Ok (idx, out) /\ selects c m idx out.
Proof.
  intros L K Hc. unfold charge_threshold_method, zero_wfs_below_threshold. rewrite L, Nat.eqb_refl. cbn [rbind]. unfold select_wfs_above_time_integrated_thr. cbn [rows cols].
  set (z := map2 _ (rows m) thrs). assert (Lz : length z = length (rows m)) by (apply length_map2_eq; congruence).
  assert (Ez : forall i, i < length (rows m) -> nth i z [] = keep_row c i (nth i (rows m) [])).
  { intros i Hi. unfold z. rewrite (nth_map2 _ _ _ _ [] 0%Q []) by (try congruence; assumption). unfold keep_row. apply map_ext. intros x. now rewrite K. }
  eexists _, _. split; [reflexivity|]. split; cbn [rows cols].
  - apply where_from_length.
  - reflexivity.
  - apply Forall_forall. intros i Hi. apply in_np_where with (d := []) in Hi. lia.
  - apply where_from_sorted.
  - eapply Forall2_impl_in; [|exact (where_filter_rows _ z 0 [])]. intros i row Hi H. cbn beta in *. rewrite Nat.sub_0_r in H. rewrite H. apply Ez. apply in_where_from with (d := []) in Hi. lia.
  - destruct c as [t thr'| |]; try contradiction. subst thr'. intros i. rewrite in_np_where with (d := []). rewrite Lz. split; intros [H1 H2]; (split; [assumption|]).
    + rewrite Ez in H2 by assumption. now apply Qle_bool_iff.
    + rewrite Ez by assumption. now apply Qle_bool_iff.
Qed.

Lemma keep_row_id c i row : (forall x, kept c i x = x) -> keep_row c i row = row.
Proof. intros H. unfold keep_row. rewrite (map_ext _ (fun x => x)) by exact H. apply map_id. Qed.

Lemma fits_all_ids sipms : Forall (fun d => sm_active d = true) sipms -> length (filter sm_active sipms) = length sipms.
Proof. induction 1 as [|d l Hd H IH]; [reflexivity|]. cbn. rewrite Hd. cbn. now rewrite IH. Qed.

Lemma selection_selects sipms c m : selection_fits sipms c -> length (rows m) = length (filter sm_active sipms) ->
  exists idx out, sipm_selection sipms c m = Ok (idx, out) /\ selects c m idx out.
Proof.
  intros F L. destruct c as [[t|ts] thr|ns pr pa|]; cbn [sipm_selection selection_fits] in *.
  - apply charge_threshold_selects; [apply map_length| |reflexivity]. intros i x Hi. cbn [kept].
    replace (nth i (map (fun _ => t) (rows m)) 0%Q) with t; [reflexivity|]. clear -Hi. revert i Hi. induction (rows m) as [|w l IH]; intros [|i] Hi; cbn in *; try lia; [reflexivity|]. apply IH. lia.
  - destruct F as [F1 F2]. rewrite fits_all_ids in L by assumption. apply charge_threshold_selects; [congruence| |reflexivity]. reflexivity.
  - rewrite fits_all_ids in L by assumption. unfold pyrrha_selection. rewrite map_length, L, Nat.eqb_refl.
    destruct (C28_spatial_selection (map sm_pos sipms) ns pr pa (rows m)) as (ids & E & S & J); [now rewrite map_length|]. rewrite E. cbn [rbind].
    eexists _, _. split; [reflexivity|]. split; cbn [rows cols].
    + now rewrite map_length.
    + reflexivity.
    + apply Forall_forall. intros j Hj. apply J in Hj. rewrite map_length in Hj. lia.
    + exact S.
    + clear. induction ids; constructor; [now rewrite keep_row_id|assumption].
    + exact I.
  - eexists _, _. split; [reflexivity|]. split; cbn.
    + apply seq_length.
    + reflexivity.
    + apply Forall_forall. intros j Hj. apply in_seq in Hj. lia.
    + rewrite <- (where_from_all (fun _ : list Q => true) (rows m) 0) by (apply Forall_forall; reflexivity). apply where_from_sorted.
    + clear. generalize (rows m). intros l. apply Forall2_impl with (R := fun i row => row = nth (i - 0) l []); [intros i row ->; rewrite Nat.sub_0_r; symmetry; now apply keep_row_id|].
      pose proof (where_filter_rows (fun _ => true) l 0 []) as H. rewrite where_from_all in H by (apply Forall_forall; reflexivity).
      replace (filter (fun _ => true) l) with l in H; [exact H|]. clear. induction l; cbn; congruence.
    + reflexivity.
Qed.

Lemma charge_threshold_any m ts thr x : charge_threshold_method m ts thr = Ok x ->
  length (fst x) = length (rows (snd x)) /\ cols (snd x) = cols m /\ Forall (fun i => i < length (rows m)) (fst x).
Proof.
  unfold charge_threshold_method, zero_wfs_below_threshold. destruct (Nat.eqb_spec (length (rows m)) (length ts)) as [E|E]; [|easy]. cbn [rbind].
  intros H. injection H as <-. cbn [fst snd rows cols]. split; [apply where_from_length|]. split; [reflexivity|].
  apply Forall_forall. intros i Hi. apply in_np_where with (d := []) in Hi. cbn [rows] in Hi. rewrite length_map2_eq in Hi by assumption. lia.
Qed.
Lemma selection_good sipms c : good_selection (total (sipm_selection sipms c)).
Proof.
  intros m Hm. unfold total. destruct (sipm_selection sipms c m) as [x|e] eqn:E; [|cbn; repeat split; constructor].
  destruct c as [[t|ts] thr|ns pr pa|]; cbn [sipm_selection] in E; try (now apply charge_threshold_any in E).
  - unfold pyrrha_selection in E. destruct (Nat.eqb_spec (length (rows m)) (length (map sm_pos sipms))) as [L|L].
    + destruct (C28_spatial_selection (map sm_pos sipms) ns pr pa (rows m) L) as (ids & E' & _ & J). rewrite E' in E. cbn [rbind] in E. injection E as <-.
      cbn [fst snd rows cols]. rewrite map_length. repeat split. apply Forall_forall. intros j Hj. apply J in Hj. lia.
    + destruct ((length (rows m) =? 1) || _); [easy|]. destruct (np_where _ _); [|easy]. injection E as <-. repeat split. constructor.
  - injection E as <-. cbn [fst snd]. rewrite seq_length. repeat split. apply Forall_forall. intros j Hj. apply in_seq in Hj. lia.
Qed.

(** ---- the search with a selection that can fail ---- *)
Lemma rebin_rows times widths wfs s ts ws m : rebin_times_and_waveforms times widths wfs s = Ok (ts, ws, m) -> length (rows m) = length (rows wfs).
Proof.
  unfold rebin_times_and_waveforms. destruct (s <? 2)%Z; [congruence|]. unfold rebin_slices. destruct (rmap _ _); [|easy]. cbn [rbind]. intros E.
  assert (m = {| cols := length (even_slices (length times) (Z.to_nat s)); rows := map (fun r => map (fun sl => sumQ (slice (fst sl) (snd sl) r)) (even_slices (length times) (Z.to_nat s))) (rows wfs) |}) as -> by congruence.
  cbn [rows]. apply map_length.
Qed.
Lemma pick_rows i times widths wfs s pad ratio ts ws m : pick_slice_and_rebin i times widths wfs s pad ratio = Ok (ts, ws, m) -> length (rows m) = length (rows wfs).
Proof.
  unfold pick_slice_and_rebin. destruct (ends i) as [[a b]|]; [|easy]. cbn [rbind]. destruct pad; intros H; apply rebin_rows in H; cbn [rows mslice] in H; rewrite !map_length in H; assumption.
Qed.

Lemma build_s2_total times widths ccwf pmt_ids sipm_ids rs sw_ pw sw sel g :
  (forall reb, length (rows reb) = length (rows sw_) -> exists x, sel reb = Ok x) ->
  build_s2 times widths ccwf pmt_ids sipm_ids rs sw_ pw sw sel g = build_peak g times widths ccwf pmt_ids sipm_ids rs (Some sw_) pw sw (total sel).
Proof.
  intros H. unfold build_s2, build_peak. cbv zeta. destruct (pick_slice_and_rebin g times widths ccwf rs true _) as [[[ts ws] pm]|]; [|reflexivity]. cbn [rbind].
  destruct (mk_responses pmt_ids pm) as [pr|]; [|reflexivity]. cbn [rbind].
  destruct (pick_slice_and_rebin (map _ g) _ _ sw_ _ false 40) as [[[ts' ws'] reb]|] eqn:E; [|reflexivity]. cbn [rbind]. apply pick_rows in E.
  destruct (H reb E) as ([idx out] & Es). unfold total. rewrite Es. reflexivity.
Qed.
Lemma find_s2s_total ccwfs index time len stride rs pmt_ids sipm_ids pw sw sipms sel :
  (forall reb, length (rows reb) = length (rows sipms) -> exists x, sel reb = Ok x) ->
  find_s2s ccwfs index time len stride rs pmt_ids sipm_ids pw sw sipms sel = find_peaks ccwfs index time len stride rs pmt_ids sipm_ids pw sw (Some sipms) (total sel).
Proof.
  intros H. unfold find_s2s, find_peaks. destruct (select_peaks _ _ _ _) as [l|]; [|reflexivity]. cbn [rbind]. apply rmap_ext_in. intros g _. now apply build_s2_total.
Qed.

(** every peak found is built from its group *)
Lemma find_peaks_built ccwfs index time len stride rs pmt_ids sipm_ids pw sw sipms sel gs q pks :
  index <> [] -> gap_partition stride index gs -> (forall g, q g = true <-> qualifies time len pw g) ->
  find_peaks ccwfs index time len stride rs pmt_ids sipm_ids pw sw sipms sel = Ok pks ->
  Forall2 (fun g pk => build_peak g (map (fun i => qn i * pw)%Q (seq 0 (cols ccwfs))) (repeat pw (cols ccwfs)) ccwfs pmt_ids sipm_ids rs sipms pw sw sel = Ok pk) (filter q gs) pks.
Proof.
  intros Hne G Hq E. assert (gs = split_in_peaks index stride) as -> by (apply (gap_partition_unique stride index); [assumption|now apply split_gap_partition]).
  unfold find_peaks in E. rewrite select_peaks_ok in E by (apply split_gap_partition; assumption). cbn [rbind] in E. apply rmap_forall2 in E.
  replace (filter q (split_in_peaks index stride)) with (filter (validb time len pw) (split_in_peaks index stride)); [exact E|].
  apply filter_ext. intros g. pose proof (validb_qualifies time len pw g) as V. pose proof (Hq g) as W. destruct (validb time len pw g), (q g); try reflexivity; exfalso.
  - assert (false = true) by tauto. easy.
  - assert (false = true) by tauto. easy.
Qed.

Lemma sorted_nth_error l i j a b : StronglySorted lt l -> i < j -> nth_error l i = Some a -> nth_error l j = Some b -> a < b.
Proof.
  intros S. revert i j. induction S as [|x l S IH F]; intros [|i] [|j] H Ea Eb; try lia; try discriminate.
  - injection Ea as <-. cbn in Eb. apply nth_error_In in Eb. rewrite Forall_forall in F. now apply F.
  - apply (IH i j); [lia|exact Ea|exact Eb].
Qed.
(** ---- the peaks that are built, bin by bin ---- *)
Lemma own_of_picked cc s p a b ts ws pk : 0 < s -> a <= b -> picked a b ts ws cc p s (p_times pk) (p_widths pk) (r_wfs (p_pmts pk)) -> own_pmts cc s p a b pk.
Proof.
  intros Hs Hab P. split; [|exact (pk_rows _ _ _ _ _ _ _ _ _ _ P)]. rewrite (pk_len _ _ _ _ _ _ _ _ _ _ P). pose proof (cdiv_spec (p + (b + 1 - a)) s Hs) as C. set (k := cdiv _ s) in *. clearbody k. destruct k; nia.
Qed.
Lemma s1_peak g a b cc wid sw rebin ids sids sel pk : starts_at g a -> ends_at g b -> a <= b -> b < cols cc -> is_mat cc -> length ids = length (rows cc) -> made_of cc wid ids a b pk ->
  build_peak g (map (fun i => qn i * wid)%Q (seq 0 (cols cc))) (repeat wid (cols cc)) cc ids sids rebin None wid sw sel = Ok pk -> s1_of cc wid rebin ids g pk.
Proof.
  intros Ha Hb Hab Hbn Mat Lids M B. exists a, b. repeat (split; [assumption|]).
  destruct (build_peak_pmt_only g a b (map (fun i => qn i * wid)%Q (seq 0 (cols cc))) (repeat wid (cols cc)) cc ids sids rebin wid sw sel) as (pk' & E & I & S & P); try assumption.
  { apply ends_spec. now split. } { now rewrite map_length, seq_length. } { now rewrite repeat_length. }
  assert (pk' = pk) by congruence. subst pk'. destruct M as (M1 & M2 & M3 & M4 & M5). split; [|split; [|exact S]].
  - unfold consistent. rewrite S. split; [exact (pk_mat _ _ _ _ _ _ _ _ _ _ P)|]. split; [constructor|]. split; [destruct (p_times pk); [easy|cbn; lia]|]. split; [exact (pk_wlen _ _ _ _ _ _ _ _ _ _ P)|].
    split; [exact (pk_cols _ _ _ _ _ _ _ _ _ _ P)|]. split; [rewrite I, Lids; exact (Forall2_len _ _ _ M2)|]. split; [reflexivity|now intros []].
  - apply (own_of_picked cc _ 0 a b _ _ pk (step_pos rebin) Hab P).
Qed.
