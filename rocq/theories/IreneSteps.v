(** Lemmas for C93: the steps before the peak search *)
From Verif Require Import Base Arrays PeaksModel PeaksSpec PeaksProofs PeaksMore PeaksFind PeaksProps WfmModel WfmSpec WfmProps CalibModel CalibSpec CalibProps CalibBlr IreneModel IreneSpec IreneProofs.
Local Open Scope nat_scope.

Lemma map2_fst_snd {A B C} (f : A -> B -> C) (xs : list (A * B)) : map2 f (map fst xs) (map snd xs) = map (fun x => f (fst x) (snd x)) xs.
Proof. induction xs as [|[a b] xs IH]; [reflexivity|]. cbn. now rewrite IH. Qed.
Lemma length_deconvolved b0 b1 a1 sqrt coef thr wf out : deconvolve_signal b0 b1 a1 sqrt coef thr wf = Ok out -> length out = length wf.
Proof.
  unfold deconvolve_signal. destruct (Qeqb coef 0); [easy|]. destruct (length wf <? n_noise); [easy|]. pose proof (length_lfilter b0 b1 a1 wf) as L.
  destruct (lfilter b0 b1 a1 wf) as [|x l]; [easy|]. intros H. injection H as <-. cbn [length] in *. now rewrite length_recover.
Qed.
Lemma sumF_zq l : (sumQ (map zq l) == sumF inject_Z l)%Q.
Proof. induction l as [|a l IH]; [reflexivity|]. cbn. rewrite IH. reflexivity. Qed.
Lemma mean0_is n w : (mean0 (firstn n w) == (sumF inject_Z (filter (fun x => negb (x =? 0)%Z) (firstn n w)) / inject_Z (Z.of_nat (length (filter (fun x => negb (x =? 0)%Z) (firstn n w))))))%Q.
Proof.
  unfold mean0, nonzero. generalize (filter (fun x => negb (x =? 0)%Z) (firstn n w)). intros [|a l]; [reflexivity|]. cbn [map]. change (zq a :: map zq l) with (map zq (a :: l)). unfold meanQ. rewrite sumF_zq, map_length. reflexivity.
Qed.
Lemma gain_pos g : Qltb 0 (Qabs g) = negb (Qeqb g 0).
Proof.
  destruct (Qeqb_spec g 0) as [E|E]; cbn [negb].
  - destruct (Qltb_spec 0 (Qabs g)) as [H|H]; [|reflexivity]. exfalso. rewrite E in H. revert H. apply Qlt_irrefl.
  - destruct (Qltb_spec 0 (Qabs g)) as [H|H]; [reflexivity|]. exfalso. apply E. revert H. apply Qabs_case; intros; lra.
Qed.

Section Steps.
  Variable butter : Q -> Q * Q * Q.
  Variable sqrt : Q -> Q.
  Variables (pmts : list pmt_row) (sipms : list sipm_row) (p : params) (ns nss : nat) (rp rs : list (list Z)) (r m : nat).
  Hypothesis H : good_event pmts sipms p ns nss rp rs r m.
  Let ap := pmts_in_use pmts rp.
  Let aps := sipms_in_use sipms rs.

  Lemma ap_length : Forall (fun dw => length (snd dw) = ns /\ In (fst dw) pmts /\ pm_active (fst dw) = true) ap.
  Proof using All.
    apply Forall_forall. intros [d w] Hd. unfold ap, pmts_in_use in Hd. apply filter_In in Hd. destruct Hd as [Hd Ha]. cbn [fst snd] in *.
    pose proof (ge_ns _ _ _ _ _ _ _ _ _ H) as F. rewrite Forall_forall in F. split; [apply F; now apply in_combine_r in Hd|]. split; [now apply in_combine_l in Hd|assumption].
  Qed.
  Lemma ap_pmts : filter pm_active pmts = map fst ap /\ select (map pm_active pmts) rp = map snd ap.
  Proof using All. destruct (select_in_use pm_active pmts rp (eq_sym (ge_pmts _ _ _ _ _ _ _ _ _ H))) as [A B]. now split. Qed.
  Lemma aps_sipms : filter sm_active sipms = map (fun x => fst (snd x)) aps /\ select (map sm_active sipms) rs = map (fun x => snd (snd x)) aps /\ np_where sm_active sipms = map fst aps.
  Proof using All.
    pose proof (eq_sym (ge_sipms _ _ _ _ _ _ _ _ _ H)) as L. destruct (select_in_use sm_active sipms rs L) as [A B]. destruct (numbered_in_use sm_active sipms rs 0 L) as [C D].
    fold (sipms_in_use sipms rs) in C, D. fold aps in C, D. rewrite <- C in A, B. rewrite !map_map in A, B. repeat split; auto.
  Qed.

  Lemma masked : sensor_masker pmts sipms rp rs = Ok (map snd ap, map (fun x => snd (snd x)) aps).
  Proof using All.
    unfold sensor_masker, mask_rows. rewrite !map_length, (ge_pmts _ _ _ _ _ _ _ _ _ H), (ge_sipms _ _ _ _ _ _ _ _ _ H), !Nat.eqb_refl. cbn [rbind].
    destruct ap_pmts as [_ ->]. destruct aps_sipms as (_ & -> & _). reflexivity.
  Qed.

  Lemma ap_nonempty : length ap <> 0.
  Proof using All.
    destruct (ge_one _ _ _ _ _ _ _ _ _ H) as (d & Hd & Ha). assert (I : In d (map fst ap)) by (rewrite <- (proj1 ap_pmts); apply filter_In; now split).
    intros E. destruct ap; [contradiction|discriminate].
  Qed.

  Lemma deconvolved : exists cs, deconv_pmt butter sqrt pmts (n_baseline p) (map snd ap) = Ok cs /\
    Forall2 (fun dw c => deconvolve_one butter sqrt (n_baseline p) (fst dw) (snd dw) = Ok c) ap cs.
  Proof using All.
    unfold deconv_pmt. rewrite (proj1 ap_pmts), !map_length, Nat.eqb_refl. cbn [negb]. pose proof (ge_baseline _ _ _ _ _ _ _ _ _ H) as Hb. pose proof ap_nonempty as Hn.
    destruct (Nat.eqb_spec (n_baseline p) 0); [lia|]. destruct (Nat.eqb_spec (length ap) 0); [lia|]. cbn [orb]. rewrite combine_map_fst_snd.
    apply rmap_Forall2. intros [d w] Hd. pose proof ap_length as F. rewrite Forall_forall in F. destruct (F _ Hd) as (L & I & A). cbn [fst snd] in *.
    unfold deconvolve_one. destruct (butter (pm_clean d)) as [[b0 b1] a1]. apply C55_domain; [now apply (ge_blr _ _ _ _ _ _ _ _ _ H)|]. rewrite map_length, L. apply (ge_400 _ _ _ _ _ _ _ _ _ H).
  Qed.

  Definition cc_of (dw : pmt_row * list Z) (c : list Q) : list Q := map (fun x => if Qltb 0 (Qabs (pm_gain (fst dw))) then (x / Qabs (pm_gain (fst dw)))%Q else 0%Q) c.
  Lemma pmts_calibrated : exists xs cm s sm, Forall2 (own_pmt butter sqrt (n_baseline p)) ap xs /\ Forall (fun x => length (fst x) = ns /\ length (snd x) = ns) xs /\
    deconv_pmt butter sqrt pmts (n_baseline p) (map snd ap) = Ok (map fst xs) /\
    calibrate_active_pmts pmts (n_maw p) (thr_maw p) ns (map fst xs) = Ok (map snd xs, cm, s, sm) /\
    length s = ns /\ length sm = ns /\
    (forall k, k < ns -> (nth k s 0 == s2_sum xs k)%Q) /\ (forall k, k < ns -> (nth k sm 0 == s1_sum (n_maw p) (thr_maw p) xs k)%Q) /\
    (forall k, k < ns -> (nth k s 0 == col_sum {| cols := ns; rows := map snd xs |} k)%Q).
  Proof using All.
    destruct deconvolved as (cs & Ed & F). pose proof ap_length as FL. set (xs := combine cs (map2 cc_of ap cs)).
    assert (L : length ap = length cs) by now apply Forall2_len in F. assert (L2 : length (map2 cc_of ap cs) = length cs) by (rewrite length_map2_eq; congruence).
    assert (Ex1 : map fst xs = cs) by (unfold xs; clear -L2; revert L2; generalize (map2 cc_of ap cs); intros l; revert l; induction cs as [|c cs IH]; intros [|x l] E; try easy; cbn in *; f_equal; apply IH; lia).
    assert (Ex2 : map snd xs = map2 cc_of ap cs) by (unfold xs; clear -L2; revert L2; generalize (map2 cc_of ap cs); intros l; revert l; induction cs as [|c cs IH]; intros [|x l] E; try easy; cbn in *; f_equal; apply IH; lia).
    assert (Own : Forall2 (own_pmt butter sqrt (n_baseline p)) ap xs /\ Forall (fun x => length (fst x) = ns /\ length (snd x) = ns) xs).
    { unfold xs. clear -F FL. induction F as [|[d w] c l cs Hc F IH]; [split; constructor|]. inversion FL as [|? ? (Hl & _) FL']; subst. destruct (IH FL') as [I1 I2]. cbn [map2 combine fst snd] in *.
      unfold deconvolve_one in Hc. split; constructor; try assumption.
      - unfold own_pmt. destruct (butter (pm_clean d)) as [[b0 b1] a1]. split.
        + eexists. split; [|exact Hc]. pose proof (mean0_is (n_baseline p) w) as Em.
          set (b := mean0 _) in *. set (b' := (_ / _)%Q) in *. clearbody b b'. clear -Em. induction w; constructor; [unfold zq; now rewrite Em|assumption].
        + unfold cc_of. cbn [fst]. clear. rewrite gain_pos. induction c as [|x c IH]; constructor; [destruct (Qeqb (pm_gain d) 0); reflexivity|exact IH].
      - cbn [fst snd]. unfold cc_of. rewrite map_length. destruct (butter (pm_clean d)) as [[b0 b1] a1]. apply length_deconvolved in Hc. rewrite map_length in Hc. split; congruence. }
    destruct Own as [Own Len].
    assert (Lw : Forall (fun wf => length wf = ns) cs). { rewrite <- Ex1. clear -Len. induction Len; cbn; constructor; tauto. }
    assert (Eg : calibrate_wfs cs (map (fun d => Qabs (pm_gain d)) (map fst ap)) = Ok (map snd xs)).
    { unfold calibrate_wfs. rewrite per_row_ok by (now rewrite !map_length). f_equal. rewrite Ex2. clear -F. induction F as [|[d w] c l cs Hc F IH]; [reflexivity|]. cbn [map map2 fst]. now rewrite IH. }
    exists xs. rewrite Ex1. unfold calibrate_active_pmts. rewrite (proj1 ap_pmts). unfold calibrate_pmts. pose proof (ge_maw _ _ _ _ _ _ _ _ _ H) as Hm. destruct (Nat.eqb_spec (n_maw p) 0); [lia|]. rewrite Eg. cbn [rbind].
    eexists _, _, _. split; [exact Own|]. split; [exact Len|]. split; [exact Ed|]. split; [reflexivity|]. unfold sum_over_sensors. cbn [cols]. rewrite !map_length, seq_length. split; [reflexivity|]. split; [reflexivity|].
    assert (N : forall f k, k < ns -> nth k (map f (seq 0 ns)) 0%Q = f k).
    { intros f k Hk. rewrite (nth_indep _ 0%Q (f 0)) by (now rewrite map_length, seq_length). now rewrite map_nth, seq_nth. }
    split; [|split]; intros k Hk; rewrite N by assumption.
    - unfold col_sum, s2_sum. cbn [rows]. rewrite map_map. unfold sumF. reflexivity.
    - unfold col_sum, s1_sum. cbn [rows]. rewrite <- Ex1 at 1. rewrite map2_fst_snd, map_map. clear -Len Hk Hm. induction xs as [|[c cc] l IH]; [reflexivity|]. inversion Len as [|? ? [L1 L2] Len']; subst.
      rewrite sumF_cons. cbn [map sumQ fst snd] in *. rewrite IH by assumption. apply Qplus_comp; [|reflexivity].
      assert (Lm : length (maw (n_maw p) c) = length c) by (unfold maw; now rewrite map_length, seq_length).
      rewrite (nth_map2 _ _ _ _ (0, 0)%Q 0%Q 0%Q) by (rewrite combine_length; lia). rewrite combine_nth by congruence. cbn [fst snd].
      pose proof (maw_spec (n_maw p) c k Hm Hk) as Em.
      destruct (Qleb_spec (nth k (maw (n_maw p) c) 0 + thr_maw p) (nth k c 0))%Q as [A|A], (Qleb_spec (moving_average (n_maw p) c k + thr_maw p) (nth k c 0))%Q as [B|B]; try reflexivity; exfalso; rewrite Em in A; lra.
    - reflexivity.
  Qed.

  Lemma sipms_calibrated : exists css, calibrate_active_sipms sipms (map (fun x => snd (snd x)) aps) = Ok css /\
    Forall2 (fun x cs => own_sipm (snd x) cs) aps css /\ Forall (fun cs => length cs = nss) css.
  Proof using All.
    unfold calibrate_active_sipms, calibrate_sipms. rewrite (proj1 aps_sipms).
    assert (FL : Forall (fun x => length (snd (snd x)) = nss) aps).
    { apply Forall_forall. intros [i [d w]] Hd. unfold aps, sipms_in_use in Hd. apply filter_In in Hd. destruct Hd as [Hd _]. apply in_combine_r, in_combine_r in Hd. cbn [snd].
      pose proof (ge_nss _ _ _ _ _ _ _ _ _ H) as F. rewrite Forall_forall in F. now apply F. }
    destruct (C54_subtract_baseline BlsMode (map (fun x => snd (snd x)) aps) ltac:(discriminate)) as (bls & E & F). rewrite E. cbn [rbind].
    unfold calibrate_wfs. rewrite per_row_ok by (rewrite <- (Forall2_len _ _ _ F), !map_length; reflexivity). eexists. split; [reflexivity|]. clear E. revert bls F FL. generalize aps. intros l.
    induction l as [|[i [d w]] l IH]; intros bls F FL; inversion F as [|? o ? bls' (b & Hb & Ho) F']; subst; [split; constructor|]. inversion FL as [|? ? HL FL']; subst. destruct (IH bls' F' FL') as [I1 I2].
    cbn [map map2 fst snd] in *. split; constructor; try assumption.
    - cbn [snd]. exists b. split; [assumption|]. rewrite gain_pos. clear -Ho. induction Ho as [|x y w o Hx Ho IH]; constructor; [|exact IH]. rewrite Hx.
      destruct (x =? 0)%Z, (Qeqb_spec (sm_gain d) 0) as [G|G]; cbn [orb negb]; reflexivity.
    - rewrite map_length. symmetry. apply (Forall2_len _ _ _ Ho).
  Qed.
End Steps.
