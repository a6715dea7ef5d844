(** C97: the PMap of hypathia is made of the simulated light *)
From Coq Require Import Qround.
From Verif Require Import Base Arrays PeaksModel PeaksSpec PeaksProofs WfmModel WfmSpec WfmProps CalibModel CalibSpec NoiseModel DetsimModel.
From Verif Require Import IreneModel IreneSpec IreneProofs IreneProps HypaModel HypaSpec HypaProofs.
Local Open Scope nat_scope.

Section Steps.
  Variables draw_pmt draw_sipm : nat -> nat -> Q -> Q.
  Variables (pmts : list pmt_row) (sipms : list sim_row) (p : hparams) (ns nss : nat) (pmtrd : mat) (sipmrd noise : list (list Q)) (r m : nat).
  Hypothesis G : good_light pmts sipms p ns nss pmtrd sipmrd noise r m.
  Hypothesis Fit : counts_fit draw_sipm sipms sipmrd noise.

  (** the PMTs and SiPMs before the peak search *)
  Definition pmts_are (ccs : list (list Q)) : Prop :=
    length ccs = length pmts /\ forall s w, nth_error (rows pmtrd) s = Some w -> exists cc, nth_error ccs s = Some cc /\ pmt_light (draw_pmt s) (h_rebin p) (h_rms p) w cc.
  Definition sipms_are (rs : list (list Z)) : Prop :=
    length rs = length sipms /\ forall s d n w, nth_error sipms s = Some d -> nth_error noise s = Some n -> nth_error sipmrd s = Some w ->
      exists z, nth_error rs s = Some z /\ sipm_response (draw_sipm s) d (h_noise_cut p) (h_padding p) n w z.

  Lemma steps : exists ccs rs css i1 i2, pmts_are ccs /\ sipms_are rs /\
    Forall2 (fun x cs => own_sipm (snd x) cs) (sipms_in_use (map ss_row sipms) rs) css /\ Forall (fun cs => length cs = nss) css /\
    is_mat {| cols := ns; rows := ccs |} /\
    samples_above ns (light_sum ccs) (thr_csum_s1 (h_pmap p)) i1 /\ samples_above ns (light_sum ccs) (thr_csum_s2 (h_pmap p)) i2 /\
    (forall i, In i i2 -> (0 < col_sum {| cols := ns; rows := ccs |} i)%Q) /\
    hypathia_step draw_pmt draw_sipm pmts sipms p nss pmtrd sipmrd noise =
      if negb (nonempty_indices i1 i2) then Ok None else
      rbind (build_pmap pmts (map ss_row sipms) (h_pmap p) {| cols := ns; rows := ccs |} i1 i2 {| cols := nss; rows := css |}) (fun pm => Ok (Some pm)).
  Proof using All.
    destruct (rebinned_ok (h_rebin p) pmtrd ns (gl_mat _ _ _ _ _ _ _ _ _ _ G)) as (w & Ew & Mw & Cw & Fw); try apply (gl_ns _ _ _ _ _ _ _ _ _ _ G).
    destruct (sipms_simulated draw_sipm sipms (h_noise_cut p) (h_padding p) nss noise sipmrd) as (wfs & rs & E1 & E2 & Lrs & Frs & Prs); try apply G; try assumption.
    destruct (calibrated_sipms (map ss_row sipms) rs nss) as (A & B & C & css & E3 & F3 & L3); [now rewrite map_length|assumption|].
    set (ccs := mapi (fun s x => charge_fluctuation (draw_pmt s) (h_rms p) x) (rows w)).
    assert (Mcc : is_mat {| cols := ns; rows := ccs |}).
    { unfold is_mat. cbn [rows cols]. apply Forall_forall. intros x Hx. destruct (In_nth _ _ [] Hx) as (s & Hs & <-). unfold ccs in *. rewrite length_mapi in Hs. rewrite (nth_mapi _ _ s [] [] Hs).
      rewrite (proj1 (fluctuation_ok (draw_pmt s) (h_rms p) (nth s (rows w) []))). unfold is_mat in Mw. rewrite Forall_forall in Mw. rewrite Mw by now apply nth_In. exact Cw. }
    assert (Pcc : pmts_are ccs).
    { split; [unfold ccs; rewrite length_mapi, <- (Forall2_len _ _ _ Fw); apply G|]. intros s x Hx. destruct (forall2_nth_error _ _ _ s x Fw Hx) as (y & Hy & Gy). exists (charge_fluctuation (draw_pmt s) (h_rms p) y).
      assert (Ly : s < length (rows w)) by (apply nth_error_Some; congruence). split.
      - unfold ccs. rewrite (nth_error_nth' _ []) by now rewrite length_mapi. rewrite (nth_mapi _ _ s [] [] Ly). now rewrite (nth_error_nth _ _ [] Hy).
      - exists y. split; [exact Gy|apply fluctuation_ok]. }
    set (cc := {| cols := ns; rows := ccs |}) in *.
    assert (Lsum : length (sum_over_sensors cc) = ns) by (unfold sum_over_sensors; rewrite map_length, seq_length; reflexivity).
    assert (Nsum : forall k, k < ns -> nth k (sum_over_sensors cc) 0%Q = col_sum cc k).
    { intros k Hk. unfold sum_over_sensors. change (cols cc) with ns. rewrite (nth_indep _ 0%Q (col_sum cc 0)) by now rewrite map_length, seq_length. rewrite map_nth, seq_nth by assumption. reflexivity. }
    assert (Esum : forall k, k < ns -> (nth k (sum_over_sensors cc) 0 == light_sum ccs k)%Q) by (intros k Hk; rewrite Nsum by assumption; reflexivity).
    pose proof (in_above (sum_over_sensors cc) (thr_csum_s1 (h_pmap p)) ns _ Lsum Esum) as A1. pose proof (in_above (sum_over_sensors cc) (thr_csum_s2 (h_pmap p)) ns _ Lsum Esum) as A2.
    exists ccs, rs, css, (indices_above_threshold (sum_over_sensors cc) (thr_csum_s1 (h_pmap p))), (indices_above_threshold (sum_over_sensors cc) (thr_csum_s2 (h_pmap p))).
    split; [exact Pcc|]. split; [split; assumption|]. split; [exact F3|]. split; [exact L3|]. split; [exact Mcc|]. split; [exact A1|]. split; [exact A2|]. split.
    { intros i Hi. apply A2 in Hi. destruct Hi as [Hi Ht]. rewrite <- Esum, Nsum in Ht by assumption. pose proof (gl_thr _ _ _ _ _ _ _ _ _ _ G). fold cc. lra. }
    unfold hypathia_step. rewrite Ew. cbn [rbind]. rewrite E1. cbn [rbind]. rewrite E2. cbn [rbind]. unfold mask_rows at 1. rewrite map_length, (gl_pmts _ _ _ _ _ _ _ _ _ _ G), Nat.eqb_refl. cbn [rbind].
    rewrite map_map in B. rewrite B. cbn [rbind]. unfold zero_suppress_wfs. unfold fluctuate_pmts. rewrite Cw. fold ccs. fold cc. destruct (negb _); [reflexivity|]. rewrite E3. reflexivity.
  Qed.
End Steps.

Lemma all_active pmts : Forall (fun d => pm_active d = true) pmts -> filter pm_active pmts = pmts.
Proof. induction 1 as [|d l H F IH]; [reflexivity|]. cbn. now rewrite H, IH. Qed.

(** The light of an event up to its PMap *)
Lemma step_found draw_pmt draw_sipm pmts sipms p ns nss pmtrd sipmrd noise r m :
  good_light pmts sipms p ns nss pmtrd sipmrd noise r m -> counts_fit draw_sipm sipms sipmrd noise ->
  Forall (fun d => pm_active d = true) pmts -> selection_fits (map ss_row sipms) (cut (h_pmap p)) ->
  exists ccs rs css o i1 i2,
    length ccs = length pmts /\
    (forall s w, nth_error (rows pmtrd) s = Some w -> exists cc, nth_error ccs s = Some cc /\ pmt_light (draw_pmt s) (h_rebin p) (h_rms p) w cc) /\
    length rs = length sipms /\
    (forall s d n w, nth_error sipms s = Some d -> nth_error noise s = Some n -> nth_error sipmrd s = Some w ->
       exists z, nth_error rs s = Some z /\ sipm_response (draw_sipm s) d (h_noise_cut p) (h_padding p) n w z) /\
    Forall2 (fun x cs => own_sipm (snd x) cs) (sipms_in_use (map ss_row sipms) rs) css /\
    samples_above ns (light_sum ccs) (thr_csum_s1 (h_pmap p)) i1 /\
    samples_above ns (light_sum ccs) (thr_csum_s2 (h_pmap p)) i2 /\
    hypathia_step draw_pmt draw_sipm pmts sipms p nss pmtrd sipmrd noise = Ok o /\
    let q := h_pmap p in
    let cc := {| cols := ns; rows := ccs |} in
    let ids := map pm_id pmts in
    let S1 := peaks_of (s1_params q) (pmt_wid q) i1 (s1_of cc (pmt_wid q) (k_rebin (s1_params q)) ids) in
    let S2 := peaks_of (s2_params q) (pmt_wid q) i2 (s2_of cc (pmt_wid q) ids (cut q) (sipms_in_use (map ss_row sipms) rs) css r m) in
    match o with
    | None => i1 = [] \/ i2 = []
    | Some (s1s, s2s) => i1 <> [] /\ i2 <> [] /\ S1 s1s /\ S2 s2s
    end.
Proof.
  intros G Fit Act Sel. destruct (steps draw_pmt draw_sipm pmts sipms p ns nss pmtrd sipmrd noise r m G Fit) as (ccs & rs & css & i1 & i2 & [P1 P2] & [R1 R2] & Own & Len & Mat & A1 & A2 & Pos & E).
  exists ccs, rs, css. unfold nonempty_indices in E. rewrite E. clear E.
  destruct (Nat.eqb_spec (length i1) 0) as [N1|N1]; cbn [negb andb].
  { exists None, i1, i2. repeat (split; [assumption|]). split; [reflexivity|]. cbn zeta. left. now destruct i1. }
  destruct (Nat.eqb_spec (length i2) 0) as [N2|N2]; cbn [negb andb].
  { exists None, i1, i2. repeat (split; [assumption|]). split; [reflexivity|]. cbn zeta. right. now destruct i2. }
  assert (K1 : i1 <> []) by (intros E; rewrite E in N1; easy). assert (K2 : i2 <> []) by (intros E; rewrite E in N2; easy).
  destruct (pmap_built pmts (map ss_row sipms) (h_pmap p) {| cols := ns; rows := ccs |} nss rs css i1 i2 r m) as (s1s & s2s & E & Q1 & Q2); try assumption; try apply G; try exact (proj1 A1); try exact (proj1 A2).
  { rewrite all_active, map_length by assumption. cbn [rows]. congruence. }
  { now rewrite map_length. }
  { intros i Hi. now apply A1 in Hi. } { intros i Hi. now apply A2 in Hi. }
  rewrite E. cbn [rbind]. rewrite all_active in Q1, Q2 by assumption. eexists _, i1, i2. repeat (split; [assumption|]). split; [reflexivity|]. cbn zeta. now repeat (split; [assumption|]).
Qed.
Theorem C97_pmap draw_pmt draw_sipm pmts sipms p ns nss pmtrd sipmrd noise r m :
  good_light pmts sipms p ns nss pmtrd sipmrd noise r m -> counts_fit draw_sipm sipms sipmrd noise ->
  Forall (fun d => pm_active d = true) pmts -> selection_fits (map ss_row sipms) (cut (h_pmap p)) ->
  exists ccs rs css o i1 i2,
    length ccs = length pmts /\
    (forall s w, nth_error (rows pmtrd) s = Some w -> exists cc, nth_error ccs s = Some cc /\ pmt_light (draw_pmt s) (h_rebin p) (h_rms p) w cc) /\
    length rs = length sipms /\
    (forall s d n w, nth_error sipms s = Some d -> nth_error noise s = Some n -> nth_error sipmrd s = Some w ->
       exists z, nth_error rs s = Some z /\ sipm_response (draw_sipm s) d (h_noise_cut p) (h_padding p) n w z) /\
    Forall2 (fun x cs => own_sipm (snd x) cs) (sipms_in_use (map ss_row sipms) rs) css /\
    samples_above ns (light_sum ccs) (thr_csum_s1 (h_pmap p)) i1 /\
    samples_above ns (light_sum ccs) (thr_csum_s2 (h_pmap p)) i2 /\
    hypathia_event draw_pmt draw_sipm pmts sipms p nss pmtrd sipmrd noise = Ok o /\
    let q := h_pmap p in
    let cc := {| cols := ns; rows := ccs |} in
    let ids := map pm_id pmts in
    let S1 := peaks_of (s1_params q) (pmt_wid q) i1 (s1_of cc (pmt_wid q) (k_rebin (s1_params q)) ids) in
    let S2 := peaks_of (s2_params q) (pmt_wid q) i2 (s2_of cc (pmt_wid q) ids (cut q) (sipms_in_use (map ss_row sipms) rs) css r m) in
    match o with
    | None => i1 = [] \/ i2 = [] \/ (S1 [] /\ S2 [])
    | Some (s1s, s2s) => i1 <> [] /\ i2 <> [] /\ (s1s <> [] \/ s2s <> []) /\ S1 s1s /\ S2 s2s
    end.
Proof.
  intros G Fit Act Sel. destruct (step_found draw_pmt draw_sipm pmts sipms p ns nss pmtrd sipmrd noise r m G Fit Act Sel) as (ccs & rs & css & o & i1 & i2 & H1 & H2 & H3 & H4 & H5 & A1 & A2 & E & H). cbv zeta in H.
  exists ccs, rs, css. unfold hypathia_event. rewrite E. cbn [rbind]. destruct o as [[s1s s2s]|].
  - destruct H as (K1 & K2 & Q1 & Q2). eexists _, i1, i2. repeat (split; [assumption|]). split; [reflexivity|]. cbn zeta. unfold nonempty_pmap. cbn [fst snd].
    destruct (Nat.eqb_spec (length s1s) 0) as [Z1|Z1]; cbn [negb orb].
    + destruct s1s; [|easy]. destruct (Nat.eqb_spec (length s2s) 0) as [Z2|Z2]; cbn [negb].
      * destruct s2s; [|easy]. right. right. now split.
      * split; [assumption|]. split; [assumption|]. split; [right; now intros ->|]. now split.
    + split; [assumption|]. split; [assumption|]. split; [left; now intros ->|]. now split.
  - exists None, i1, i2. repeat (split; [assumption|]). split; [reflexivity|]. cbn zeta. destruct H as [H|H]; auto.
Qed.
Print Assumptions C97_pmap.

(** With a PMT that is not in use, its light is in the sums where the peaks are searched, and the first peak stops hypathia with an error *)
Theorem C97_masked_refuted draw_pmt draw_sipm pmts sipms p ns nss pmtrd sipmrd noise r m :
  good_light pmts sipms p ns nss pmtrd sipmrd noise r m -> counts_fit draw_sipm sipms sipmrd noise ->
  (exists d, In d pmts /\ pm_active d = false) ->
  exists ccs i1 i2,
    length ccs = length pmts /\
    (forall s w, nth_error (rows pmtrd) s = Some w -> exists cc, nth_error ccs s = Some cc /\ pmt_light (draw_pmt s) (h_rebin p) (h_rms p) w cc) /\
    samples_above ns (light_sum ccs) (thr_csum_s1 (h_pmap p)) i1 /\
    samples_above ns (light_sum ccs) (thr_csum_s2 (h_pmap p)) i2 /\
    let q := h_pmap p in
    let has_peak s idx := exists gs g, gap_partition (k_stride s) idx gs /\ In g gs /\ qualifies (k_time s) (k_length s) (pmt_wid q) g in
    (i1 <> [] -> i2 <> [] -> has_peak (s1_params q) i1 \/ has_peak (s2_params q) i2 ->
     hypathia_event draw_pmt draw_sipm pmts sipms p nss pmtrd sipmrd noise = Err ValueError).
Proof.
  intros G Fit (d0 & Hd0 & Ha0). destruct (steps draw_pmt draw_sipm pmts sipms p ns nss pmtrd sipmrd noise r m G Fit) as (ccs & rs & css & i1 & i2 & [P1 P2] & [R1 R2] & Own & Len & Mat & A1 & A2 & Pos & E).
  exists ccs, i1, i2. repeat (split; [assumption|]). cbn zeta. intros K1 K2 Q. unfold hypathia_event. rewrite E. unfold nonempty_indices. destruct (Nat.eqb_spec (length i1) 0) as [N1|N1]; [now destruct i1|]. destruct (Nat.eqb_spec (length i2) 0) as [N2|N2]; [now destruct i2|]. cbn [negb andb].
  rewrite pmap_fails; try reflexivity; try assumption; try apply G; try exact (proj1 A1); try exact (proj1 A2).
  - cbn [rows]. rewrite P1. clear -Hd0 Ha0. assert (W : forall l, length (filter pm_active l) <= length l) by (induction l as [|x l IH]; cbn; [lia|destruct (pm_active x); cbn; lia]).
    assert (length (filter pm_active pmts) < length pmts); [|lia]. induction pmts as [|x l IH]; [easy|]. cbn. destruct Hd0 as [-> |Hd0]; [rewrite Ha0; specialize (W l); lia|]. specialize (IH Hd0). destruct (pm_active x); cbn; lia.
  - exists r, m. destruct G. auto.
  - intros i Hi. now apply A1 in Hi.
  - intros i Hi. now apply A2 in Hi.
Qed.
Print Assumptions C97_masked_refuted.

(** an event with an S1 and an S2, seen by two PMTs and three SiPMs, the second of which is not in use *)
Definition hex_pmts b := [ {| pm_id := 3; pm_active := true; pm_clean := 1; pm_blr := 1; pm_gain := 2 |}; {| pm_id := 8; pm_active := b; pm_clean := 1; pm_blr := 1; pm_gain := 2 |} ].
Definition hex_sipm b g := {| ss_row := {| sm_active := b; sm_gain := g; sm_pos := (0, 0)%Q |}; ss_sigma := 0; ss_base := 5 |}.
Definition hex_sipms := [hex_sipm true 2; hex_sipm false 1; hex_sipm true 1].
Definition hex_par := {| h_rebin := 2; h_rms := 1; h_noise_cut := 1 # 2; h_padding := 1; h_pmap := {|
  n_baseline := 0; n_maw := 0; thr_maw := 0; thr_csum_s1 := 1; thr_csum_s2 := 2;
  s1_params := {| k_time := {| mn := 0; mx := 4 |}; k_length := {| mn := 1; mx := 10 |}; k_stride := 2; k_rebin := 1 |};
  s2_params := {| k_time := {| mn := 5; mx := 50 |}; k_length := {| mn := 1; mx := 100 |}; k_stride := 2; k_rebin := 2 |};
  pmt_wid := 1; sipm_wid := 2; cut := NoCut |} |}.
Definition hex_pmtrd := {| cols := 20; rows := [[0;0; 3;0; 0;0;0;0;0;0;0;0; 4;4; 2;2; 0;0;0;0]; [0;0; 0;0; 0;0;0;0;0;0;0;0; 1;1; 2;2; 0;0;0;0]]%Q |}.
Definition hex_light := [[0;0;0;3;0]; [0;0;0;9;0]; [0;0;0;7;0]]%Q.
Definition hex_noise := repeat (repeat 5%Q 5) 3.
Definition hex_draw (s j : nat) (q : Q) : Q := q.
Lemma hex_good b : good_light (hex_pmts b) hex_sipms hex_par 10 5 hex_pmtrd hex_light hex_noise 2 1.
Proof. split; try reflexivity; try (repeat constructor; reflexivity); try (cbn; lia); try (cbn; lra). Qed.
Lemma hex_fit : counts_fit hex_draw hex_sipms hex_light hex_noise.
Proof.
  intros s d w n fl j H1 H2 H3 [L F] Hj. destruct s as [|[|[|s]]]; cbn [nth_error hex_sipms hex_light hex_noise repeat] in *; [..|destruct s; discriminate]; injection H1 as <-; injection H2 as <-; injection H3 as <-;
  cbn [hex_sipm ss_row sm_gain ss_sigma length] in *; assert (N : Qeqb 2 0 = false /\ Qeqb 1 0 = false) by (split; reflexivity); destruct N as [N2 N1];
  specialize (F j Hj); rewrite ?N1, ?N2 in F; cbn zeta in F; change (Qeqb (0 / 2) 0) with true in F; change (Qeqb (0 / 1) 0) with true in F; cbv iota in F;
  do 5 (destruct j as [|j]; [cbn [nth] in *; lra|]); lia.
Qed.
Example C97_ex :
  good_light (hex_pmts true) hex_sipms hex_par 10 5 hex_pmtrd hex_light hex_noise 2 1 /\ counts_fit hex_draw hex_sipms hex_light hex_noise /\
  Forall (fun d => pm_active d = true) (hex_pmts true) /\ selection_fits (map ss_row hex_sipms) (cut (h_pmap hex_par)) /\
  match hypathia_event hex_draw hex_draw (hex_pmts true) hex_sipms hex_par 5 hex_pmtrd hex_light hex_noise with
  | Ok (Some ([s1], [s2])) => r_ids (p_pmts s1) = [3; 8] /\ map (map Qred) (rows (r_wfs (p_pmts s2))) = [[12]; [6]]%Q /\ r_ids (p_sipms s2) = [0; 2] /\ map (map Qred) (rows (r_wfs (p_sipms s2))) = [[3]; [7]]%Q
  | _ => False
  end /\
  hypathia_event hex_draw hex_draw (hex_pmts false) hex_sipms hex_par 5 hex_pmtrd hex_light hex_noise = Err ValueError.
Proof.
  split; [apply hex_good|]. split; [apply hex_fit|]. split; [repeat constructor|]. split; [exact I|]. split; [vm_compute; repeat split|vm_compute; reflexivity].
Qed.
