(** C93: every waveform of a PMap belongs to the sensor it is labelled with *)
From Verif Require Import Base Arrays PeaksModel PeaksSpec PeaksProofs PeaksMore PeaksFind PeaksProps WfmModel WfmSpec WfmProps CalibModel CalibSpec CalibProps CalibBlr IreneModel IreneSpec IreneProofs IreneSteps.
Local Open Scope nat_scope.

Lemma in_above wf thr n f : length wf = n -> (forall k, k < n -> (nth k wf 0 == f k)%Q) -> samples_above n f thr (indices_above_threshold wf thr).
Proof.
  intros L E. split; [apply where_from_sorted|]. intros k. unfold indices_above_threshold. rewrite in_np_where with (d := 0%Q). rewrite L. split; intros [H1 H2]; (split; [assumption|]).
  - destruct (Qltb_spec thr (nth k wf 0%Q)) as [K|K]; [|discriminate]. now rewrite <- E.
  - destruct (Qltb_spec thr (nth k wf 0%Q)) as [K|K]; [reflexivity|]. rewrite E in K by assumption. lra.
Qed.

Lemma kept_comp c i x y : (x == y)%Q -> (kept c i x == kept c i y)%Q.
Proof.
  intros E. destruct c as [[t|ts] thr|? ? ?|]; cbn [kept]; try assumption.
  - rewrite (Qltb_comp t t x y) by (assumption || reflexivity). destruct (Qltb t y); [assumption|reflexivity].
  - rewrite (Qltb_comp (nth i ts 0%Q) (nth i ts 0%Q) x y) by (assumption || reflexivity). destruct (Qltb _ y); [assumption|reflexivity].
Qed.
Lemma nth_keep_row c i row k : k < length row -> nth k (keep_row c i row) 0%Q = kept c i (nth k row 0%Q).
Proof. intros H. unfold keep_row. rewrite (nth_indep _ 0%Q (kept c i 0%Q)) by (now rewrite map_length). apply map_nth. Qed.
Lemma sumQ_nth l : sumQ l = sumF (fun k => nth k l 0%Q) (seq 0 (length l)).
Proof. induction l as [|a l IH]; [reflexivity|]. cbn [length seq sumQ]. rewrite sumF_cons. cbn [nth]. rewrite <- seq_shift, sumF_map. cbn [nth]. now rewrite <- IH. Qed.

(** the position of a SiPM among those in use is its position in the database when all are *)
Lemma in_use_fits sipms c use rs i id dw : use = sipms_in_use sipms rs -> length sipms = length rs -> selection_fits sipms c -> nth_error use i = Some (id, dw) ->
  forall q, kept c i q = kept c id q.
Proof.
  intros -> L F E q. destruct c as [[t|ts] thr|? ? ?|]; cbn [kept selection_fits] in *; try reflexivity.
  replace i with id; [reflexivity|]. destruct F as [_ F]. destruct (numbered_in_use sm_active sipms rs 0 L) as [_ D]. fold (sipms_in_use sipms rs) in D. rewrite where_from_all in D by assumption.
  apply (map_nth_error fst) in E. rewrite D in E. cbn [fst] in E. assert (Hi : i < length sipms) by (rewrite <- (seq_length (length sipms) 0); apply nth_error_Some; congruence).
  apply nth_error_nth with (d := 0) in E. rewrite seq_nth in E by assumption. lia.
Qed.

(** the SiPMs of an S2, from the positions of the selection *)
Lemma sipms_of_selection sipms rs c css r m a b reb idx out pk :
  length sipms = length rs -> selection_fits sipms c -> length css = length (sipms_in_use sipms rs) ->
  selects c reb idx out -> is_mat reb -> cols reb = length (p_times pk) -> r_wfs (p_sipms pk) = out ->
  Forall2 (fun i id => nth_error (map fst (sipms_in_use sipms rs)) i = Some id) idx (r_ids (p_sipms pk)) ->
  Forall2 (fun w w' => forall k, (k < length (p_times pk))%nat -> (nth k w' 0 == sipm_bin r m a b k w)%Q) css (rows reb) ->
  own_sipms c (sipms_in_use sipms rs) css r m a b pk.
Proof.
  intros L F Lc S M C W I R. set (use := sipms_in_use sipms rs) in *. destruct S as [S1 S2 S3 _ S4 S5]. unfold own_sipms. rewrite W.
  pose proof (Forall2_len _ _ _ I) as LI. pose proof (Forall2_len _ _ _ R) as LR. split; [congruence|].
  assert (Row : forall i cs, nth_error css i = Some cs -> length (nth i (rows reb) []) = length (p_times pk) /\ forall k, k < length (p_times pk) -> (nth k (nth i (rows reb) []) 0 == sipm_bin r m a b k cs)%Q).
  { intros i cs E. destruct (forall2_nth_error _ _ _ _ _ R E) as (row & Er & Hr). rewrite (nth_error_nth _ _ _ Er). split; [|exact Hr].
    unfold is_mat in M. rewrite Forall_forall in M. rewrite <- C. apply M. now apply nth_error_In in Er. }
  split.
  - intros j id row Ej Er. destruct (forall2_nth_error_r _ _ _ _ _ I Ej) as (i & Ei & Eid). destruct (nth_error_map_inv _ _ _ _ Eid) as ([id' dw] & Eu & E). cbn [fst] in E. subst id'.
    destruct (forall2_nth_error _ _ _ _ _ S4 Ei) as (row' & Er' & Hr). assert (Hrr : row' = row) by congruence. rewrite Hrr in Hr.
    assert (Hi : i < length css) by (rewrite Lc; apply nth_error_Some; congruence). destruct (nth_error css i) as [cs|] eqn:Ec; [|now apply nth_error_None in Ec; lia].
    exists i, dw, cs. split; [assumption|]. split; [assumption|]. destruct (Row i cs Ec) as [R1 R2]. rewrite Hr. split; [unfold keep_row; now rewrite map_length|]. intros k Hk.
    rewrite nth_keep_row by lia. rewrite (in_use_fits sipms c use rs i id dw eq_refl L F Eu). apply kept_comp. now apply R2.
  - intros i id dw cs Eu Ec. destruct (Row i cs Ec) as [R1 R2].
    assert (Iff : In id (r_ids (p_sipms pk)) <-> In i idx).
    { assert (Ef : nth_error (map fst use) i = Some id) by (now apply (map_nth_error fst) in Eu). assert (ND : NoDup (map fst use)).
      { destruct (numbered_in_use sm_active sipms rs 0 L) as [_ D]. fold (sipms_in_use sipms rs) in D. fold use in D. rewrite D. clear. generalize 0. induction sipms as [|d l IH]; intros k; cbn; [constructor|].
        destruct (sm_active d); [|apply IH]. constructor; [|apply IH]. intros Hk. apply where_from_bound in Hk. lia. }
      split; intros Hin.
      - apply In_nth_error in Hin. destruct Hin as (j & Ej). destruct (forall2_nth_error_r _ _ _ _ _ I Ej) as (i' & Ei & Eid). replace i with i'; [now apply nth_error_In in Ei|].
        apply (proj1 (NoDup_nth_error (map fst use)) ND); [apply nth_error_Some; congruence|congruence].
      - apply In_nth_error in Hin. destruct Hin as (j & Ej). destruct (forall2_nth_error _ _ _ _ _ I Ej) as (id' & Ei & Eid). assert (id' = id) by congruence. subst. now apply nth_error_In in Ei. }
    assert (Hi : i < length (rows reb)) by (rewrite <- LR; apply nth_error_Some; congruence).
    destruct c as [t thr|? ? ?|].
    + rewrite Iff, S5. assert (E : (sumQ (keep_row (CutThreshold t thr) i (nth i (rows reb) [])) == sumF (fun k => kept (CutThreshold t thr) id (sipm_bin r m a b k cs)) (seq 0 (length (p_times pk))))%Q).
      { rewrite sumQ_nth. unfold keep_row at 2. rewrite map_length, R1. apply sumF_ext. intros k Hk. apply in_seq in Hk. rewrite nth_keep_row by lia. rewrite (in_use_fits sipms _ use rs i id dw eq_refl L F Eu). apply kept_comp. apply R2. lia. }
      rewrite E. split; [tauto|]. intros Ht. now split.
    + exact Logic.I.
    + rewrite Iff, S5. apply in_seq. lia.
Qed.

(** an S2 with its SiPMs *)
Lemma s2_peak sipms rs c css r m a b reb idx out cc wid ids g pk ts ws :
  starts_at g a -> ends_at g b -> a <= b -> 0 < r -> 0 < m -> length ids = length (rows cc) -> made_of cc wid ids a b pk ->
  picked a b ts ws cc (a mod r) (r * m) (p_times pk) (p_widths pk) (r_wfs (p_pmts pk)) ->
  length sipms = length rs -> selection_fits sipms c -> length css = length (sipms_in_use sipms rs) ->
  selects c reb idx out -> is_mat reb -> cols reb = length (p_times pk) -> r_wfs (p_sipms pk) = out ->
  Forall2 (fun i id => nth_error (map fst (sipms_in_use sipms rs)) i = Some id) idx (r_ids (p_sipms pk)) ->
  Forall2 (fun w w' => forall k, (k < length (p_times pk))%nat -> (nth k w' 0 == sipm_bin r m a b k w)%Q) css (rows reb) ->
  s2_of cc wid ids c (sipms_in_use sipms rs) css r m g pk.
Proof.
  intros Ha Hb Hab Hr Hm Lids M P L F Lc S Mr C W I R. exists a, b. repeat (split; [assumption|]). destruct M as (M1 & M2 & M3 & M4 & M5). split; [|split; [|split]].
  - unfold consistent. destruct S as [S1 S2 S3 _ S4 _]. rewrite W. split; [exact (pk_mat _ _ _ _ _ _ _ _ _ _ P)|]. split.
    { unfold is_mat in *. rewrite S2. rewrite Forall_forall in S3. clear -S4 Mr S3. induction S4 as [|i row l l' E S4 IH]; constructor; [|apply IH; intros; apply S3; now right].
      rewrite E. unfold keep_row. rewrite map_length. rewrite Forall_forall in Mr. apply Mr. apply nth_In. apply S3. now left. }
    split; [destruct (p_times pk); [easy|cbn; lia]|]. split; [exact (pk_wlen _ _ _ _ _ _ _ _ _ _ P)|]. split; [exact (pk_cols _ _ _ _ _ _ _ _ _ _ P)|].
    split; [rewrite M1, Lids; exact (Forall2_len _ _ _ M2)|]. split; [pose proof (Forall2_len _ _ _ I); congruence|]. intros _. congruence.
  - apply (own_of_picked cc (r * m) (a mod r) a b ts ws pk); [nia|assumption|exact P].
  - pose proof (se_sorted _ _ _ _ S) as So. destruct (numbered_in_use sm_active sipms rs 0 L) as [_ D]. fold (sipms_in_use sipms rs) in D.
    pose proof (where_from_sorted sm_active sipms 0) as Sw. rewrite <- D in Sw. clear -So I Sw. induction I as [|i id l l' E I IH]; [constructor|]. inversion So as [|? ? S1 S2]; subst. constructor; [now apply IH|].
    clear IH. induction I as [|j jd l l' E' I IH]; [constructor|]. inversion S2 as [|? ? H1 H2]; subst. inversion S1; subst. constructor; [|apply IH; [now constructor| assumption | assumption]].
    exact (sorted_nth_error _ _ _ _ _ (proj1 Sw) H1 E E').
  - now apply (sipms_of_selection sipms rs c css r m a b reb idx out pk).
Qed.

Lemma step_found butter sqrt pmts sipms p ns nss rp rs r m :
  good_event pmts sipms p ns nss rp rs r m -> selection_fits sipms (cut p) ->
  exists xs css o i1 i2,
    Forall2 (own_pmt butter sqrt (n_baseline p)) (pmts_in_use pmts rp) xs /\
    Forall2 (fun x cs => own_sipm (snd x) cs) (sipms_in_use sipms rs) css /\
    samples_above ns (s1_sum (n_maw p) (thr_maw p) xs) (thr_csum_s1 p) i1 /\
    samples_above ns (s2_sum xs) (thr_csum_s2 p) i2 /\
    irene_step butter sqrt pmts sipms p ns nss rp rs = Ok o /\
    let cc := {| cols := ns; rows := map snd xs |} in
    let ids := map pm_id (filter pm_active pmts) in
    let S1 := peaks_of (s1_params p) (pmt_wid p) i1 (s1_of cc (pmt_wid p) (k_rebin (s1_params p)) ids) in
    let S2 := peaks_of (s2_params p) (pmt_wid p) i2 (s2_of cc (pmt_wid p) ids (cut p) (sipms_in_use sipms rs) css r m) in
    match o with
    | None => i1 = [] \/ i2 = []
    | Some (s1s, s2s) => i1 <> [] /\ i2 <> [] /\ S1 s1s /\ S2 s2s
    end.
Proof.
  intros G F. destruct (pmts_calibrated butter sqrt pmts sipms p ns nss rp rs r m G) as (xs & cm & s & sm & Own & Len & Ed & Ec & Ls & Lsm & H2 & H1 & Hcol).
  destruct (sipms_calibrated butter sqrt pmts sipms p ns nss rp rs r m G) as (css & Es & OwnS & LenS).
  exists xs, css. unfold irene_step. rewrite (masked butter sqrt pmts sipms p ns nss rp rs r m G). cbn [rbind]. rewrite Ed. cbn [rbind]. rewrite Ec. cbn [rbind]. unfold zero_suppress_wfs.
  pose proof (in_above sm (thr_csum_s1 p) ns _ Lsm H1) as A1. pose proof (in_above s (thr_csum_s2 p) ns _ Ls H2) as A2.
  set (i1 := indices_above_threshold sm (thr_csum_s1 p)) in *. set (i2 := indices_above_threshold s (thr_csum_s2 p)) in *.
  assert (Lc : length (map snd xs) = length (map fst (pmts_in_use pmts rp))) by (rewrite !map_length; symmetry; now apply Forall2_len in Own).
  assert (Mat : is_mat {| cols := ns; rows := map snd xs |}). { unfold is_mat. cbn [rows cols]. clear -Len. induction Len; cbn; constructor; tauto. }
  unfold nonempty_indices. destruct (Nat.eqb_spec (length i1) 0) as [N1|N1]; cbn [negb andb].
  { exists None, i1, i2. repeat (split; [assumption|]). split; [reflexivity|]. cbn zeta. left. now destruct i1. }
  destruct (Nat.eqb_spec (length i2) 0) as [N2|N2]; cbn [negb andb].
  { exists None, i1, i2. repeat (split; [assumption|]). split; [reflexivity|]. cbn zeta. right. now destruct i2. }
  assert (K1 : i1 <> []) by (intros E; rewrite E in N1; easy). assert (K2 : i2 <> []) by (intros E; rewrite E in N2; easy).
  rewrite Es. cbn [rbind]. unfold build_pmap. rewrite (proj1 (ap_pmts butter sqrt pmts sipms p ns nss rp rs r m G)).
  destruct (aps_sipms butter sqrt pmts sipms p ns nss rp rs r m G) as (Ef & _ & Ew). rewrite Ew.
  set (ids := map pm_id (map fst (pmts_in_use pmts rp))). set (cc := {| cols := ns; rows := map snd xs |}) in *. set (sp := {| cols := nss; rows := css |}).
  assert (Lids : length ids = length (rows cc)) by (unfold ids, cc; cbn [rows]; rewrite map_length; congruence).
  (* S1 *)
  destruct (find_peaks_spec cc i1 (k_time (s1_params p)) (k_length (s1_params p)) (k_stride (s1_params p)) (k_rebin (s1_params p)) ids [] (pmt_wid p) (sipm_wid p) None (fun m => ([], m)))
    as (s1s & g1 & q1 & E1 & G1 & Q1 & _ & F1); try assumption; [apply A1|intros i Hi; now apply A1 in Hi|apply (ge_wid _ _ _ _ _ _ _ _ _ G)|exact I|].
  pose proof (find_peaks_built _ _ _ _ _ _ _ _ _ _ _ _ _ _ _ K1 G1 Q1 E1) as B1. rewrite E1. cbn [rbind].
  assert (P1 : peaks_of (s1_params p) (pmt_wid p) i1 (s1_of cc (pmt_wid p) (k_rebin (s1_params p)) ids) s1s).
  { exists g1, q1. split; [assumption|]. split; [assumption|]. eapply Forall2_impl_in; [|apply (Forall2_and' _ _ _ _ F1 B1)]. cbn beta. intros g pk Hg [(a & b & Ha & Hb & Hab & Hm) Bk].
    apply (s1_peak g a b cc (pmt_wid p) (sipm_wid p) (k_rebin (s1_params p)) ids [] (fun m => ([], m)) pk); try assumption. apply A1. rewrite <- (gp_concat _ _ _ G1). apply in_concat. exists g. split; [now apply filter_In in Hg|]. destruct Hb as (t & ->). apply in_app_iff. right. now left. }
  (* S2 *)
  assert (Lcss : length css = length (sipms_in_use sipms rs)) by (symmetry; now apply Forall2_len in OwnS).
  assert (Lsp : length (rows sp) = length (filter sm_active sipms)) by (rewrite Ef, map_length; exact Lcss).
  assert (Tot : forall reb, length (rows reb) = length (rows sp) -> exists idx out, sipm_selection sipms (cut p) reb = Ok (idx, out) /\ selects (cut p) reb idx out).
  { intros reb Hr. apply selection_selects; [assumption|congruence]. }
  rewrite find_s2s_total by (intros reb Hr; destruct (Tot reb Hr) as (idx & out & E & _); now exists (idx, out)).
  assert (RO : readout_ok cc sp (map fst (sipms_in_use sipms rs)) (k_rebin (s2_params p)) (pmt_wid p) (sipm_wid p) (total (sipm_selection sipms (cut p))) r m).
  { destruct G. unfold readout_ok. repeat (split; [assumption|]). split; [rewrite map_length; symmetry; exact Lcss|]. apply selection_good. }
  destruct (find_peaks_spec cc i2 (k_time (s2_params p)) (k_length (s2_params p)) (k_stride (s2_params p)) (k_rebin (s2_params p)) ids (map fst (sipms_in_use sipms rs)) (pmt_wid p) (sipm_wid p) (Some sp) (total (sipm_selection sipms (cut p))))
    as (s2s & g2 & q2 & E2 & G2 & Q2 & _ & F2); try assumption; [apply A2|intros i Hi; now apply A2 in Hi|apply (ge_wid _ _ _ _ _ _ _ _ _ G)|split; [now exists r, m|]|].
  { intros i Hi. apply A2 in Hi. destruct Hi as [Hi Ht]. rewrite <- H2 in Ht by assumption. rewrite Hcol in Ht by assumption. pose proof (ge_thr _ _ _ _ _ _ _ _ _ G). fold cc in Ht. lra. }
  pose proof (find_peaks_built _ _ _ _ _ _ _ _ _ _ _ _ _ _ _ K2 G2 Q2 E2) as B2. rewrite E2. cbn [rbind].
  assert (P2 : peaks_of (s2_params p) (pmt_wid p) i2 (s2_of cc (pmt_wid p) ids (cut p) (sipms_in_use sipms rs) css r m) s2s).
  { exists g2, q2. split; [assumption|]. split; [assumption|]. eapply Forall2_impl_in; [|apply (Forall2_and' _ _ _ _ F2 B2)]. cbn beta. intros g pk Hg [(a & b & Ha & Hb & Hab & Hm) Bk].
    assert (Hbn : b < cols cc).
    { apply A2. rewrite <- (gp_concat _ _ _ G2). apply in_concat. exists g. split; [now apply filter_In in Hg|]. destruct Hb as (t & ->). apply in_app_iff. right. now left. }
    destruct (build_peak_with_sipms g a b (map (fun i => qn i * pmt_wid p)%Q (seq 0 (cols cc))) (repeat (pmt_wid p) (cols cc)) cc ids (map fst (sipms_in_use sipms rs)) sp (pmt_wid p) (sipm_wid p) (total (sipm_selection sipms (cut p))) r m)
      as (pk' & reb & tss & wss & Eb & Ei & W & Ids & Pp & Ps & Lr); try assumption; try apply RO; try (apply ends_spec; now split).
    { rewrite map_length, seq_length. exact Hbn. } { now rewrite repeat_length. }
    { apply Nat.div_lt_upper_bound; [pose proof (ge_r _ _ _ _ _ _ _ _ _ G); lia|]. pose proof (ge_long _ _ _ _ _ _ _ _ _ G). change (cols sp) with nss. change (cols cc) with ns in Hbn. lia. }
    assert (pk' = pk) by (rewrite (ge_rebin _ _ _ _ _ _ _ _ _ G) in Bk; congruence). subst pk'.
    pose proof (Forall2_len _ _ _ (pk_rows _ _ _ _ _ _ _ _ _ _ Ps)) as Lrr.
    destruct (Tot reb (eq_sym Lrr)) as (idx & out & Esel & Sel). unfold total in W, Ids. rewrite Esel in W, Ids. cbn [fst snd] in W, Ids.
    eapply (s2_peak sipms rs (cut p) css r m a b reb idx out cc (pmt_wid p) ids g pk);
      [exact Ha|exact Hb|exact Hab|apply (ge_r _ _ _ _ _ _ _ _ _ G)|apply (ge_m _ _ _ _ _ _ _ _ _ G)|exact Lids|exact Hm|exact Pp|symmetry; apply (ge_sipms _ _ _ _ _ _ _ _ _ G)|exact F|exact Lcss|exact Sel|apply (pk_mat _ _ _ _ _ _ _ _ _ _ Ps)|exact Lr|exact W|exact Ids|].
    - assert (Ltss : length tss = length (p_times pk)) by (rewrite <- Lr; symmetry; apply (pk_cols _ _ _ _ _ _ _ _ _ _ Ps)).
      eapply Forall2_impl; [|apply (pk_rows _ _ _ _ _ _ _ _ _ _ Ps)]. cbn beta. intros w w' Hw k Hk. rewrite Ltss in Hw. rewrite (Hw k Hk). unfold sipm_bin, bin_lo, bin_hi. rewrite !Nat.sub_0_r. reflexivity. }
  eexists _, i1, i2. repeat (split; [assumption|]). split; [reflexivity|]. cbn zeta. now repeat split.
Qed.
Theorem C93_pmap butter sqrt pmts sipms p ns nss rp rs r m :
  good_event pmts sipms p ns nss rp rs r m -> selection_fits sipms (cut p) ->
  exists xs css o i1 i2,
    Forall2 (own_pmt butter sqrt (n_baseline p)) (pmts_in_use pmts rp) xs /\
    Forall2 (fun x cs => own_sipm (snd x) cs) (sipms_in_use sipms rs) css /\
    samples_above ns (s1_sum (n_maw p) (thr_maw p) xs) (thr_csum_s1 p) i1 /\
    samples_above ns (s2_sum xs) (thr_csum_s2 p) i2 /\
    irene_event butter sqrt pmts sipms p ns nss rp rs = Ok o /\
    let cc := {| cols := ns; rows := map snd xs |} in
    let ids := map pm_id (filter pm_active pmts) in
    let S1 := peaks_of (s1_params p) (pmt_wid p) i1 (s1_of cc (pmt_wid p) (k_rebin (s1_params p)) ids) in
    let S2 := peaks_of (s2_params p) (pmt_wid p) i2 (s2_of cc (pmt_wid p) ids (cut p) (sipms_in_use sipms rs) css r m) in
    match o with
    | None => i1 = [] \/ i2 = [] \/ (S1 [] /\ S2 [])
    | Some (s1s, s2s) => i1 <> [] /\ i2 <> [] /\ (s1s <> [] \/ s2s <> []) /\ S1 s1s /\ S2 s2s
    end.
Proof.
  intros G F. destruct (step_found butter sqrt pmts sipms p ns nss rp rs r m G F) as (xs & css & o & i1 & i2 & H1 & H2 & H3 & H4 & E & H). cbv zeta in H.
  exists xs, css, (match o with Some pm => if nonempty_pmap pm then Some pm else None | None => None end), i1, i2. repeat (split; [assumption|]). split; [unfold irene_event; rewrite E; reflexivity|]. cbv zeta.
  destruct o as [[s1s s2s]|]; [|tauto]. destruct H as (K1 & K2 & P1 & P2). unfold nonempty_pmap. cbn [fst snd]. destruct (Nat.eqb_spec (length s1s) 0) as [Z1|Z1]; cbn [negb orb].
  - destruct s1s; [|easy]. destruct (Nat.eqb_spec (length s2s) 0) as [Z2|Z2]; cbn [negb].
    + destruct s2s; [|easy]. right. right. now split.
    + split; [assumption|]. split; [assumption|]. split; [right; now intros ->|]. now split.
  - split; [assumption|]. split; [assumption|]. split; [left; now intros ->|]. now split.
Qed.
Print Assumptions C93_pmap.

(** When each SiPM of the database has its own threshold and one of them is not in use, the waveforms given to the selection are fewer
    than the thresholds: the first S2 that is built stops irene with an error. *)
Lemma s2s_fail cc index s pmt_ids sipm_ids pw sw sp sel r m e :
  index <> [] -> is_mat cc -> length pmt_ids = length (rows cc) -> (forall i, In i index -> i < cols cc) -> StronglySorted lt index ->
  readout_ok cc sp sipm_ids (k_rebin s) pw sw (total sel) r m ->
  (forall reb, length (rows reb) = length (rows sp) -> sel reb = Err e) ->
  (exists gs g, gap_partition (k_stride s) index gs /\ In g gs /\ qualifies (k_time s) (k_length s) pw g) ->
  find_s2s cc index (k_time s) (k_length s) (k_stride s) (k_rebin s) pmt_ids sipm_ids pw sw sp sel = Err e.
Proof.
  intros Hne M Lids Hin Hs RO Hsel (gs & g0 & G & Hg0 & Hq0). assert (gs = split_in_peaks index (k_stride s)) as -> by (apply (gap_partition_unique (k_stride s) index); [assumption|now apply split_gap_partition]).
  unfold find_s2s. rewrite select_peaks_ok by (apply split_gap_partition; assumption). cbn [rbind].
  assert (I0 : In g0 (filter (validb (k_time s) (k_length s) pw) (split_in_peaks index (k_stride s)))) by (apply filter_In; split; [assumption|now apply validb_qualifies]).
  assert (Sub : forall g, In g (filter (validb (k_time s) (k_length s) pw) (split_in_peaks index (k_stride s))) -> g <> [] /\ (forall i, In i g -> i < cols cc) /\ StronglySorted lt g).
  { intros g Hg. apply filter_In in Hg. destruct Hg as [Hg _]. pose proof (gp_nonempty _ _ _ G) as N. rewrite Forall_forall in N. split; [now apply N|]. split.
    - intros i Hi. apply Hin. rewrite <- (gp_concat _ _ _ G). apply in_concat. now exists g.
    - rewrite <- (gp_concat _ _ _ G) in Hs. clear -Hs Hg. induction (split_in_peaks index (k_stride s)) as [|h l IH]; [easy|]. cbn [concat] in Hs. destruct Hg as [-> |Hg].
      + clear IH. induction g as [|x g IH]; constructor; inversion Hs; subst; [now apply IH|]. rewrite Forall_forall in *. intros y Hy. apply H2. apply in_app_iff. now left.
      + apply IH; [|assumption]. clear -Hs. induction h as [|x h IH]; [assumption|]. inversion Hs; subst. now apply IH. }
  destruct (filter _ _) as [|g l]; [contradiction|]. destruct (Sub g (or_introl eq_refl)) as (N & B & S). cbn [rmap].
  destruct g as [|a g]; [contradiction|]. destruct (ends (a :: g)) as [[a' b]|] eqn:Ee; [|discriminate]. destruct (SS_ends _ _ _ S Ee) as [Hab _]. destruct (ends_in _ _ _ Ee) as [_ Hb].
  destruct RO as (Hr & Hm & Hfl & Hst & Hsm & Hcl & Hsid & Hgs). pose proof (B b Hb) as Bb.
  destruct (build_peak_with_sipms (a :: g) a' b (map (fun i => qn i * pw)%Q (seq 0 (cols cc))) (repeat pw (cols cc)) cc pmt_ids sipm_ids sp pw sw (total sel) r m)
    as (pk & reb & tss & wss & Eb & _); try assumption.
  { now rewrite map_length, seq_length. } { now rewrite repeat_length. } { apply Nat.div_lt_upper_bound; lia. }
  rewrite <- Hst in Eb. unfold build_peak in Eb. unfold build_s2. cbv zeta in *.
  destruct (pick_slice_and_rebin (a :: g) _ _ cc _ true _) as [[[ts ws] pm]|]; [|discriminate]. cbn [rbind] in *. destruct (mk_responses pmt_ids pm) as [pr|]; [|discriminate]. cbn [rbind] in *.
  destruct (pick_slice_and_rebin (map _ _) _ _ sp _ false 40) as [[[ts' ws'] reb']|] eqn:Ep; [|discriminate]. cbn [rbind]. apply pick_rows in Ep. rewrite (Hsel reb' Ep). reflexivity.
Qed.

Theorem C93_individual_thresholds_refuted butter sqrt pmts sipms p ns nss rp rs r m ts thr :
  good_event pmts sipms p ns nss rp rs r m -> cut p = CutThreshold (IndividualThr ts) thr -> length ts = length sipms ->
  (exists d, In d sipms /\ sm_active d = false) ->
  exists xs i1 i2,
    Forall2 (own_pmt butter sqrt (n_baseline p)) (pmts_in_use pmts rp) xs /\
    samples_above ns (s1_sum (n_maw p) (thr_maw p) xs) (thr_csum_s1 p) i1 /\
    samples_above ns (s2_sum xs) (thr_csum_s2 p) i2 /\
    (i1 <> [] -> i2 <> [] -> (exists gs g, gap_partition (k_stride (s2_params p)) i2 gs /\ In g gs /\ qualifies (k_time (s2_params p)) (k_length (s2_params p)) (pmt_wid p) g) ->
     irene_event butter sqrt pmts sipms p ns nss rp rs = Err ValueError).
Proof.
  intros G Hc Lt (d0 & Hd0 & Ha0). destruct (pmts_calibrated butter sqrt pmts sipms p ns nss rp rs r m G) as (xs & cm & s & sm & Own & Len & Ed & Ec & Ls & Lsm & H2 & H1 & Hcol).
  destruct (sipms_calibrated butter sqrt pmts sipms p ns nss rp rs r m G) as (css & Es & OwnS & LenS).
  pose proof (in_above sm (thr_csum_s1 p) ns _ Lsm H1) as A1. pose proof (in_above s (thr_csum_s2 p) ns _ Ls H2) as A2.
  exists xs, (indices_above_threshold sm (thr_csum_s1 p)), (indices_above_threshold s (thr_csum_s2 p)). repeat (split; [assumption|]).
  set (i1 := indices_above_threshold sm (thr_csum_s1 p)) in *. set (i2 := indices_above_threshold s (thr_csum_s2 p)) in *. intros K1 K2 Hgs.
  unfold irene_event, irene_step. rewrite (masked butter sqrt pmts sipms p ns nss rp rs r m G). cbn [rbind]. rewrite Ed. cbn [rbind]. rewrite Ec. cbn [rbind]. unfold zero_suppress_wfs. fold i1 i2.
  assert (Lc : length (map snd xs) = length (map fst (pmts_in_use pmts rp))) by (rewrite !map_length; symmetry; now apply Forall2_len in Own).
  assert (Mat : is_mat {| cols := ns; rows := map snd xs |}). { unfold is_mat. cbn [rows cols]. clear -Len. induction Len; cbn; constructor; tauto. }
  unfold nonempty_indices. destruct (Nat.eqb_spec (length i1) 0) as [N1|N1]; [now destruct i1|]. destruct (Nat.eqb_spec (length i2) 0) as [N2|N2]; [now destruct i2|]. cbn [negb andb].
  rewrite Es. cbn [rbind]. unfold build_pmap. rewrite (proj1 (ap_pmts butter sqrt pmts sipms p ns nss rp rs r m G)).
  destruct (aps_sipms butter sqrt pmts sipms p ns nss rp rs r m G) as (Ef & _ & Ew). rewrite Ew.
  set (ids := map pm_id (map fst (pmts_in_use pmts rp))). set (cc := {| cols := ns; rows := map snd xs |}) in *. set (sp := {| cols := nss; rows := css |}).
  assert (Lids : length ids = length (rows cc)) by (unfold ids, cc; cbn [rows]; rewrite map_length; congruence).
  destruct (find_peaks_spec cc i1 (k_time (s1_params p)) (k_length (s1_params p)) (k_stride (s1_params p)) (k_rebin (s1_params p)) ids [] (pmt_wid p) (sipm_wid p) None (fun m => ([], m)))
    as (s1s & g1 & q1 & E1 & _); try assumption; [apply A1|intros i Hi; now apply A1 in Hi|apply (ge_wid _ _ _ _ _ _ _ _ _ G)|exact I|].
  rewrite E1. cbn [rbind].
  assert (Lcss : length css = length (sipms_in_use sipms rs)) by (symmetry; now apply Forall2_len in OwnS).
  assert (Lsp : length (rows sp) = length (filter sm_active sipms)) by (rewrite Ef, map_length; exact Lcss).
  assert (Lact : length (filter sm_active sipms) < length sipms).
  { clear -Hd0 Ha0. assert (W : forall l, length (filter sm_active l) <= length l) by (induction l as [|x l IH]; cbn; [lia|destruct (sm_active x); cbn; lia]).
    induction sipms as [|x l IH]; [easy|]. cbn. destruct Hd0 as [-> |Hd0]; [rewrite Ha0; specialize (W l); lia|]. specialize (IH Hd0). destruct (sm_active x); cbn; lia. }
  rewrite (s2s_fail cc i2 (s2_params p) ids (map fst (sipms_in_use sipms rs)) (pmt_wid p) (sipm_wid p) sp (sipm_selection sipms (cut p)) r m ValueError); try assumption; try reflexivity.
  - intros i Hi. now apply A2 in Hi.
  - apply A2.
  - destruct G. unfold readout_ok. repeat (split; [assumption|]). split; [rewrite map_length; symmetry; exact Lcss|]. apply selection_good.
  - intros reb Hr. rewrite Hc. cbn [sipm_selection]. unfold charge_threshold_method, zero_wfs_below_threshold. destruct (Nat.eqb_spec (length (rows reb)) (length ts)); [lia|reflexivity].
Qed.
Print Assumptions C93_individual_thresholds_refuted.

(** The same happens with the selection by position: it has the positions of all the SiPMs of the database. *)
Theorem C93_pyrrha_refuted sipms nsigma proximity padding m :
  length (rows m) = length (filter sm_active sipms) -> 1 < length (rows m) < length sipms ->
  (exists i, nth i (median_std_method (rows m) nsigma) false = true) ->
  sipm_selection sipms (CutPyrrha nsigma proximity padding) m = Err ValueError.
Proof.
  intros L Hl (i & Hi). cbn [sipm_selection]. unfold pyrrha_selection. rewrite map_length. destruct (Nat.eqb_spec (length (rows m)) (length sipms)); [lia|].
  destruct (Nat.eqb_spec (length (rows m)) 1); [lia|]. destruct (Nat.eqb_spec (length sipms) 1); [lia|]. cbn [orb].
  assert (In i (np_where (fun b => b) (median_std_method (rows m) nsigma))).
  { apply in_np_where with (d := false). split; [|assumption]. destruct (Nat.lt_ge_cases i (length (median_std_method (rows m) nsigma))); [assumption|]. rewrite nth_overflow in Hi by assumption. discriminate. }
  destruct (np_where _ _); [contradiction|reflexivity].
Qed.
Print Assumptions C93_pyrrha_refuted.

(** an event with an S1 and an S2, seen by two PMTs out of three *)
Definition ex_butter (c : Q) : Q * Q * Q := (1, 0, 0)%Q.
Definition ex_sqrt (x : Q) : Q := x.
Definition ex_pmts := [ {| pm_id := 3; pm_active := true; pm_clean := 1; pm_blr := 1 # 2; pm_gain := 2 |};
                        {| pm_id := 5; pm_active := false; pm_clean := 1; pm_blr := 1; pm_gain := 20 |};
                        {| pm_id := 8; pm_active := true; pm_clean := 1; pm_blr := 1 # 4; pm_gain := -4 |} ].
Definition ex_sipms b := [ {| sm_active := true; sm_gain := 1; sm_pos := (0, 0)%Q |}; {| sm_active := b; sm_gain := 1; sm_pos := (10, 0)%Q |}; {| sm_active := true; sm_gain := 2; sm_pos := (20, 0)%Q |} ].
Definition ex_par c := {| n_baseline := 1; n_maw := 2; thr_maw := 1; thr_csum_s1 := 1; thr_csum_s2 := 2;
  s1_params := {| k_time := {| mn := 0; mx := 50 |}; k_length := {| mn := 1; mx := 10 |}; k_stride := 2; k_rebin := 1 |};
  s2_params := {| k_time := {| mn := 100; mx := 5000 |}; k_length := {| mn := 1; mx := 100 |}; k_stride := 2; k_rebin := 4 |};
  pmt_wid := 1; sipm_wid := 2; cut := c |}.
Definition pulses (h g : Z) : list Z := (repeat 10 20 ++ [10 - h] ++ repeat 10 180 ++ [10 - g; 10 - g; 10 - g] ++ repeat 10 196)%Z.
Definition light (h : Z) : list Z := (repeat 5 100 ++ [h; h; h] ++ repeat 5 97)%Z.
Definition ex_rp := [pulses 8 3; pulses 1 1; pulses 4 4].
Definition ex_rs := [light 7; light 9; light 11].
Definition individual := CutThreshold (IndividualThr [1; 1; 1]%Q) 1.

Lemma ex_good b c : good_event ex_pmts (ex_sipms b) (ex_par c) 400 200 ex_rp ex_rs 2 2.
Proof.
  split; try reflexivity; try (cbn; lia).
  - repeat constructor; reflexivity.
  - repeat constructor; reflexivity.
  - exists (nth 0 ex_pmts (hd {| pm_id := 0; pm_active := false; pm_clean := 0; pm_blr := 0; pm_gain := 0 |} ex_pmts)). split; [left; reflexivity|reflexivity].
  - intros d [<-|[<-|[<-|[]]]]; easy.
  - cbn. lra.
Qed.
Example C93_ex :
  good_event ex_pmts (ex_sipms false) (ex_par (CutThreshold (CommonThr 3) 1)) 400 200 ex_rp ex_rs 2 2 /\ selection_fits (ex_sipms false) (CutThreshold (CommonThr 3) 1) /\
  good_event ex_pmts (ex_sipms true) (ex_par individual) 400 200 ex_rp ex_rs 2 2 /\ selection_fits (ex_sipms true) individual /\
  match irene_event ex_butter ex_sqrt ex_pmts (ex_sipms false) (ex_par (CutThreshold (CommonThr 3) 1)) 400 200 ex_rp ex_rs with
  | Ok (Some ([s1], [s2])) => r_ids (p_pmts s1) = [3; 8] /\ r_ids (p_sipms s2) = [0; 2] /\ map (map Qred) (rows (r_wfs (p_sipms s2))) = [[4; 0]; [6; 0]]%Q
  | _ => False
  end /\
  irene_event ex_butter ex_sqrt ex_pmts (ex_sipms false) (ex_par individual) 400 200 ex_rp ex_rs = Err ValueError.
Proof.
  split; [apply ex_good|]. split; [exact I|]. split; [apply ex_good|]. split; [split; [reflexivity|repeat constructor]|]. split; [vm_compute; repeat split|vm_compute; reflexivity].
Qed.
Example C93_pyrrha_ex :
  let m := {| cols := 1; rows := [[1]; [9]]%Q |} in
  length (rows m) = length (filter sm_active (ex_sipms false)) /\ nth 1 (median_std_method (rows m) 1) false = true /\
  sipm_selection (ex_sipms false) (CutPyrrha 1 15 15) m = Err ValueError.
Proof. vm_compute. repeat split. Qed.
