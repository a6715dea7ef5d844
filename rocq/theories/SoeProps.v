(** C103: the hits of an event of Sophronia *)
From Coq Require Import NArith.
From Verif Require Import Base Arrays PeaksModel PeaksSpec PeaksMore PeaksThr PmapioModel PmapioProofs FiltersModel FiltersSpec FiltersProps HitsModel HitsSpec HitsProofs HitsProps KrModel KrProps SophModel SophSpec SophPeak SophProps SophEnergy SophClusters.
From Verif Require Import CorrModel CorrSpec CorrMore EsmModel EsmSpec EsmProps SoeModel SoeSpec.
Local Open Scope Q_scope.

Lemma table_rel hits k : Forall2 (fun q h => row_of_hit q h /\ hE h = Some (q_E q)) hits (mapi_from k (fun i h => {| hmeta := i; npeak := q_npeak h; hX := q_X h; hY := q_Y h; hZ := q_Z h; hQ := q_Q h; hE := Some (q_E h); hEc := None |}) hits).
Proof. revert k. induction hits as [|h hits IH]; intros k; constructor; [|apply IH]. split; [|reflexivity]. repeat split. Qed.
Lemma table_made hits : Forall2 (fun q h => row_of_hit q h /\ hE h = Some (q_E q)) hits (hits_table hits).
Proof. apply table_rel. Qed.
Lemma merged_finite sp t : mergeable sp hE t -> forall h, In h (merge_NN_hits false sp t) -> finite (hE h).
Proof.
  intros M h. unfold merge_NN_hits. destruct (existsb is_nn t); [|intros Hh; destruct M as (M & _); now apply M]. intros Hh. apply in_map_iff in Hh. destruct Hh as (x & <- & Hx). cbn [hE].
  destruct (corrected_spec sp (others t) (filter is_nn t) hE x) as (q & E & _); [now apply mergeable_shares|apply others_in in Hx; destruct M as (M & _); apply M, Hx|]. exists q. exact E.
Qed.
Lemma merged_not_negative sp t : (forall h, In h t -> 0 <= HitsSpec.val (hE h)) -> forall h, In h (merge_NN_hits false sp t) -> 0 <= HitsSpec.val (hE h).
Proof.
  intros P h. unfold merge_NN_hits. destruct (existsb is_nn t); [|apply P]. intros Hh. apply in_map_iff in Hh. destruct Hh as (x & <- & Hx). cbn [hE]. set (rest := filter (fun h => negb (is_nn h)) t) in *.
  assert (Pr : forall g, In g rest -> 0 <= HitsSpec.val (hE g)) by (intros g Hg; apply filter_In in Hg; now apply P). specialize (Pr x Hx) as Px. unfold corrected.
  assert (N : 0 <= HitsSpec.val (fold_left (fun acc nn => nadd acc (correction sp rest hE nn x)) (filter is_nn t) (Some 0))).
  { assert (G : forall l a, (forall nn, In nn l -> 0 <= HitsSpec.val (correction sp rest hE nn x)) -> 0 <= HitsSpec.val a -> 0 <= HitsSpec.val (fold_left (fun acc nn => nadd acc (correction sp rest hE nn x)) l a)).
    { induction l as [|n l IH]; intros a H A; [exact A|]. cbn [fold_left]. apply IH; [intros; apply H; now right|]. specialize (H n (or_introl eq_refl)). destruct a, (correction sp rest hE n x); cbn in *; lra. }
    apply G; [|cbn; lra]. intros nn Hn. apply filter_In in Hn. specialize (P nn (proj1 Hn)). unfold correction. destruct (closest sp rest nn x); [|cbn; lra]. rewrite nansum_total.
    assert (T : 0 <= total hE (filter (closest sp rest nn) rest)) by (apply sumF_nonneg; intros g Hg; apply filter_In in Hg; now apply Pr). set (tt := total hE _) in *. clearbody tt.
    destruct (hE nn) as [a|], (hE x) as [b|]; cbn [nmul ndiv HitsSpec.val] in *; try lra. destruct (Qeqb_spec tt 0) as [Zt|Zt]; cbn [HitsSpec.val]; [lra|]. apply Qle_shift_div_l; [|rewrite Qmult_0_l; now apply Qmult_le_0_compat]. destruct (Qlt_le_dec 0 tt); [assumption|]. exfalso. apply Zt. lra. }
  destruct (hE x), (fold_left _ _ _); cbn in *; lra.
Qed.
Lemma rows_trans l t m : Forall2 (fun q h => row_of_hit q h /\ hE h = Some (q_E q)) l t -> Forall2 same_row t m -> Forall2 row_of_hit l m.
Proof.
  intros F. revert m. induction F as [|q h l t' [(A1 & A2 & A3 & A4 & A5) _] F IH]; intros m R; inversion R as [|? h' ? m' (B0 & B1 & B2 & B3 & B4 & B5) R']; subst; constructor; [|now apply IH].
  unfold row_of_hit. rewrite B1, B2, B3, B4, B5. repeat split; assumption.
Qed.
Lemma table_filter hits t : Forall2 (fun q h => row_of_hit q h /\ hE h = Some (q_E q)) hits t ->
  Forall2 (fun q h => row_of_hit q h /\ hE h = Some (q_E q)) (filter with_position hits) (filter (fun h => negb (is_nn h)) t).
Proof.
  induction 1 as [|q h hits t [R E] F IH]; [constructor|]. cbn [filter]. assert (X : with_position q = negb (is_nn h)) by (unfold with_position, is_nn; destruct R as (_ & _ & _ & _ & ->); reflexivity). rewrite X. destruct (negb (is_nn h)); [constructor; [split|]|]; assumption.
Qed.
Lemma table_energy hits t : Forall2 (fun q h => row_of_hit q h /\ hE h = Some (q_E q)) hits t -> total hE t == sumF q_E hits.
Proof. unfold total. induction 1 as [|q h hits t [R E] F IH]; [reflexivity|]. rewrite !sumF_cons, E, IH. reflexivity. Qed.

Lemma in2_right {A B} (R : A -> B -> Prop) l l' : Forall2 R l l' -> forall b, In b l' -> exists a, In a l /\ R a b.
Proof. induction 1 as [|x y l l' H F IH]; intros b []; [subst; exists x; split; [now left|assumption]|]. destruct (IH b) as (a & Ia & Ra); [assumption|]. exists a. split; [now right|assumption]. Qed.
Lemma in2_left {A B} (R : A -> B -> Prop) l l' : Forall2 R l l' -> forall a, In a l -> exists b, In b l' /\ R a b.
Proof. induction 1 as [|x y l l' H F IH]; intros a []; [subst; exists y; split; [now left|assumption]|]. destruct (IH a) as (b & Ib & Rb); [assumption|]. exists b. split; [now right|assumption]. Qed.

Section Event.
  Variable nearest : list (Q * Q * Q) -> Q * Q * Q -> nat.
  Hypothesis griddata : takes_nearest nearest.
  Variables (xys : list (Q * Q)) (v : Q) (noise : list nat -> list Q -> Z -> list Q) (sw : Q -> Z) (ct : charge_type) (greco : list (Q * Q) -> list Q -> result (option (list (Q * Q)))).
  Hypothesis noise_len : forall ids qs w, length ids = length qs -> length (noise ids qs w) = length qs.
  Hypothesis ends : global_ends greco.
  Variables (c : limits) (s : selector) (md : rebin_model) (thr : Q) (same_peak : bool) (corr : option corrections).
  Hypothesis selector_ok : mk_selector c = Ok s.
  Hypothesis thr_pos : 0 < thr.
  Let ch := charge_of ct noise sw.

  (** what the hits of a peak are like *)
  Lemma sample_hit t0 p k hs h : hits_of_sample xys v t0 ch thr p k hs -> In h hs ->
    (q_Q h == HitsModel.NN /\ lit ch thr p k = []) \/ (with_position h = true /\ lit ch thr p k <> [] /\ (0 < energy_at p k -> 0 < q_E h)).
  Proof using thr_pos.
    intros (_ & [(L & h' & -> & _ & _ & Eq & _)|(L & F)]) Hh.
    - destruct Hh as [<-|[]]. left. rewrite Eq. split; [reflexivity|exact L].
    - right. assert (T : forall x, In x (lit ch thr p k) -> thr <= snd x) by (intros x Hx; unfold lit in Hx; apply filter_In in Hx; destruct Hx as [_ Hx]; now apply Qle_bool_iff).
      assert (S : 0 <= sumF snd (lit ch thr p k)) by (apply sumF_nonneg; intros x Hx; specialize (T x Hx); lra). set (tot := sumF snd (lit ch thr p k)) in *. assert (X : exists x, In x (lit ch thr p k) /\ q_Q h = snd x /\ q_E h * (tot + EPSILON) == snd x * energy_at p k).
      { destruct (in2_right _ _ _ F h Hh) as (x & Hx & _ & R2 & R3). exists x. repeat split; assumption. }
      destruct X as (x & Hx & Eq & Ee). specialize (T x Hx). split; [|split; [exact L|]].
      + unfold with_position. destruct (Qeqb_spec (q_Q h) HitsModel.NN) as [C|C]; [|reflexivity]. rewrite Eq in C. unfold HitsModel.NN in C. lra.
      + intros He. assert (P : 0 < snd x * energy_at p k) by (apply Qmult_lt_0_compat; lra). rewrite <- Ee in P. assert (D : 0 < tot + EPSILON) by (unfold EPSILON; lra).
        destruct (Qlt_le_dec 0 (q_E h)) as [G|G]; [exact G|]. exfalso. assert (q_E h * (tot + EPSILON) <= 0 * (tot + EPSILON)) by (apply Qmult_le_compat_r; lra). lra.
  Qed.

  Lemma sample_energy t0 p k hs h : hits_of_sample xys v t0 ch thr p k hs -> In h hs -> 0 <= energy_at p k -> 0 <= q_E h.
  Proof using thr_pos.
    intros (_ & [(L & h' & -> & _ & _ & _ & Eq)|(L & F)]) Hh He; [destruct Hh as [<-|[]]; now rewrite Eq|].
    destruct (in2_right _ _ _ F h Hh) as (x & Hx & _ & _ & Ee). assert (T : forall x, In x (lit ch thr p k) -> thr <= snd x) by (intros y Hy; unfold lit in Hy; apply filter_In in Hy; destruct Hy as [_ Hy]; now apply Qle_bool_iff).
    assert (S : 0 <= sumF snd (lit ch thr p k)) by (apply sumF_nonneg; intros y Hy; specialize (T y Hy); lra). specialize (T x Hx). set (tot := sumF snd (lit ch thr p k)) in *. clearbody tot.
    assert (D : 0 < tot + EPSILON) by (unfold EPSILON; lra). assert (P : 0 <= snd x * energy_at p k) by (apply Qmult_le_0_compat; lra). rewrite <- Ee in P.
    destruct (Qlt_le_dec (q_E h) 0) as [G|G]; [|exact G]. exfalso. assert (0 < (- q_E h) * (tot + EPSILON)) by (apply Qmult_lt_0_compat; lra). lra.
  Qed.

  Theorem C103_event pm ev ts chosen :
    let sel := pmap_filter s pm in
    passed sel = true -> picked 0 (s2_peaks sel) (s2s pm) chosen -> chosen <> [] -> (N.of_nat (length (s2s pm)) <= 65536)%N -> usable_corrections corr ->
    (forall i p, In (i, p) chosen -> usable xys p) ->
    exists t0 made rebinned,
      start_of_drift pm sel t0 /\ Forall2 (fun '(i, p) p' => rebin_peak p md = Ok p') chosen rebinned /\
      (exists groups, made = concat groups /\ Forall2 (fun ip hs => hits_of_peak xys v t0 ch greco thr (fst ip) (snd ip) hs) (combine (map fst chosen) rebinned) groups) /\
      let result := sophronia_hits nearest xys v noise sw ct greco s (fst (args_of md)) (snd (args_of md)) thr same_peak corr pm ev ts in
      ((forall p, In p rebinned -> ~ lights_up ch thr p) -> result = Ok (Some None)) /\
      ((exists p, In p rebinned /\ lights_up ch thr p) -> exists merged out, result = Ok (Some (Some out)) /\ corrected_as corr merged out /\
        Forall2 row_of_hit (filter with_position made) merged /\
        ((forall i p, In (i, p) chosen -> not_negative p) -> forall h, In h merged -> 0 <= HitsSpec.val (hE h)) /\
        ((forall i p, In (i, p) chosen -> not_negative p) -> (forall p, In p rebinned -> bright p) -> (same_peak = true -> forall p, In p rebinned -> lights_up ch thr p) ->
         (forall h, In h merged -> finite (hE h)) /\ total hE merged <= event_energy chosen /\ event_energy chosen * thr <= total hE merged * (thr + EPSILON))).
  Proof using All.
    intros sel Hpass Hp Hne Hmax Hcorr Hu. assert (T : exists t0, start_of_drift pm sel t0).
    { destruct (C36_selection c s pm selector_ok) as (F1 & _ & _). fold sel in F1. pose proof (eq_sym (Forall2_len _ _ _ F1)) as L1. set (c1 := selected (s1_peaks sel) (s1s pm)). assert (P1 : picked 0 (s1_peaks sel) (s1s pm) c1) by (apply picked_selected_from; exact L1).
      destruct c1 as [|[i p] rest] eqn:E1. - destruct chosen as [|[i p] rest]; [easy|]. destruct (Hu i p (or_introl eq_refl)) as ((_ & _ & Lt & _) & _). destruct (p_times p) as [|t0 tt] eqn:Et; [cbn in Lt; lia|]. exists t0. right. split; [exact P1|]. exists i, p, rest, tt. now split.
      - exists (time_at_max_energy p). left. exists i, p, rest. now split. }
    destruct T as (t0 & Ht). destruct (C70_hits_of_an_event xys v noise sw ct greco md thr pm sel ev ts t0 chosen Hp Hne Ht Hmax thr_pos noise_len ends Hu) as (made & groups & Em & Ec & _ & F).
    assert (R : exists rebinned, Forall2 (fun '(i, p) p' => rebin_peak p md = Ok p') chosen rebinned /\ Forall2 (fun ip hs => hits_of_peak xys v t0 ch greco thr (fst ip) (snd ip) hs) (combine (map fst chosen) rebinned) groups).
    { clear -F. induction F as [|[i p] hs l g (p' & E & H) F IH]; [exists []; split; constructor|]. destruct IH as (rb & R1 & R2). exists (p' :: rb). split; constructor; assumption. }
    destruct R as (rebinned & R1 & R2). exists t0, made, rebinned. split; [exact Ht|]. split; [exact R1|]. split; [exists groups; now split|]. intros result.
    assert (Er : result = let hits := hits_table made in if negb (0 <? count_valid_hits hits)%nat then Ok (Some None) else
       let hits := merge_NN_hits false same_peak hits in match corr with None => Ok (Some (Some hits)) | Some k => rbind (snd (correct nearest (k_map k) (k_dvs k) (k_method k) (k_xy k) (k_temp k) (k_z k) hits)) (fun hits => Ok (Some (Some hits))) end).
    { unfold result, sophronia_hits. fold sel. rewrite Hpass. cbn [negb]. rewrite Em. reflexivity. }
    clearbody result. cbv zeta in Er. pose proof (table_made made) as TR. set (t := hits_table made) in *. clearbody t.
    (* every hit is of a sample of a rebinned peak *)
    assert (O : forall h, In h made -> exists i p k, In p rebinned /\ In (i, p) (combine (map fst chosen) rebinned) /\ (k < length (p_times p))%nat /\ q_npeak h = i /\
      ((q_Q h == HitsModel.NN /\ lit ch thr p k = []) \/ (with_position h = true /\ lit ch thr p k <> [] /\ (0 < energy_at p k -> 0 < q_E h)))).
    { intros h Hh. subst made. apply in_concat in Hh. destruct Hh as (hs & Hhs & Hh). destruct (in2_right _ _ _ R2 hs Hhs) as ([i p] & Hip & (N & _ & gs & Fg & ->)). cbn [fst snd] in *. apply in_concat in Hh. destruct Hh as (g & Hg & Hh).
      destruct (in2_right _ _ _ Fg g Hg) as (k & Hk & Hs). apply in_seq in Hk. exists i, p, k. split; [now apply in_combine_r in Hip|]. split; [exact Hip|]. split; [lia|]. split; [rewrite Forall_forall in N; apply N, in_concat; eauto|]. exact (sample_hit t0 p k g h Hs Hh). }
    (* a peak that lights up has a hit with position *)
    assert (W : forall i p, In (i, p) (combine (map fst chosen) rebinned) -> lights_up ch thr p -> exists h, In h made /\ with_position h = true /\ q_npeak h = i).
    { intros i p Hip (k & Hk & Hl). destruct (in2_left _ _ _ R2 (i, p) Hip) as (hs & Hhs & (N & _ & gs & Fg & Eg)). cbn [fst snd] in *. destruct (in2_left _ _ _ Fg k) as (g & Hg & Hs); [apply in_seq; lia|].
      assert (G : exists h, In h g). { destruct Hs as (_ & [(L & h & -> & _)|(L & Fh)]); [exists h; now left|]. destruct g as [|h g]; [inversion Fh; congruence|]. exists h; now left. }
      destruct G as (h & Hh). exists h. assert (Hin : In h hs) by (subst hs; apply in_concat; eauto). split; [subst made; apply in_concat; eauto|]. split; [|rewrite Forall_forall in N; now apply N]. destruct (sample_hit t0 p k g h Hs Hh) as [[_ L]|[X _]]; [congruence|exact X]. }
    pose proof (table_filter _ _ TR) as TF. assert (CV : count_valid_hits t = length (filter with_position made)) by (unfold count_valid_hits; symmetry; exact (Forall2_len _ _ _ TF)).
    split.
    - intros Dark. assert (Z : filter with_position made = []). { destruct (filter with_position made) as [|h l] eqn:E; [reflexivity|]. exfalso. assert (Hh : In h (filter with_position made)) by (rewrite E; now left). apply filter_In in Hh. destruct Hh as [Hh Hw].
        destruct (O h Hh) as (i & p & k & Hp' & _ & Hk & _ & [[X _]|(_ & L & _)]); [unfold with_position in Hw; destruct (Qeqb_spec (q_Q h) HitsModel.NN); [discriminate|easy]|]. apply (Dark p Hp'). exists k. now split. }
      rewrite Er, CV, Z. reflexivity.
    - intros (p0 & Hp0 & Hl0). assert (C0 : exists i0, In (i0, p0) (combine (map fst chosen) rebinned)).
      { clear -R1 Hp0. induction R1 as [|[i p] p' l rb E F IH]; [easy|]. destruct Hp0 as [->|H]; [exists i; now left|]. destruct (IH H) as (j & Hj). exists j. now right. }
      destruct C0 as (i0 & Hi0). destruct (W i0 p0 Hi0 Hl0) as (h0 & Hh0 & Hw0 & _).
      assert (NE : (0 <? count_valid_hits t)%nat = true). { rewrite CV. apply Nat.ltb_lt. assert (X : In h0 (filter with_position made)) by (apply filter_In; now split). destruct (filter with_position made); [easy|cbn; lia]. }
      rewrite NE in Er. cbn [negb] in Er. set (merged := merge_NN_hits false same_peak t) in *. exists merged.
      assert (OUT : exists out, result = Ok (Some (Some out)) /\ corrected_as corr merged out).
      { unfold corrected_as, usable_corrections in *. destruct corr as [k|]; [|exists merged; now split]. destruct Hcorr as (U & Tm & Vz). destruct (C80_corrected nearest griddata (k_map k) (k_dvs k) (k_method k) (k_xy k) (k_z k) merged U Vz) as (out & dv & E & Hv & Fo). rewrite Tm, E in Er. exists out. split; [exact Er|]. now exists dv. }
      destruct OUT as (out & Eo & Hco). exists out. split; [exact Eo|]. split; [exact Hco|].
      assert (ROWS : Forall2 same_row (filter (fun h => negb (is_nn h)) t) merged).
      { unfold merged, merge_NN_hits. destruct (existsb is_nn t) eqn:Ex.
        - match goal with |- Forall2 _ ?l (map ?f ?l) => assert (K : forall m, Forall2 same_row m (map f m)) by (induction m as [|a m IH]; constructor; [repeat split|exact IH]); apply K end.
        - assert (FA : filter (fun h => negb (is_nn h)) t = t). { apply filter_all_in. intros h Hh. destruct (is_nn h) eqn:En; [|reflexivity]. assert (existsb is_nn t = true) by (apply existsb_exists; eauto). congruence. }
          rewrite FA. clear. induction t as [|a l IH]; constructor; [repeat split|exact IH]. }
      split.
      { exact (rows_trans _ _ _ TF ROWS). }
      split.
      { intros Nneg. apply merged_not_negative. intros h Hh. destruct (in2_right _ _ _ TR h Hh) as (q & Hq & _ & Eq). rewrite Eq. cbn [HitsSpec.val].
        subst made. apply in_concat in Hq. destruct Hq as (hs & Hhs & Hq). destruct (in2_right _ _ _ R2 hs Hhs) as ([i p'] & Hip & (_ & _ & gs & Fg & ->)). cbn [fst snd] in *. apply in_concat in Hq. destruct Hq as (g & Hg & Hq).
        destruct (in2_right _ _ _ Fg g Hg) as (k & Hk & Hs). apply in_seq in Hk. apply (sample_energy t0 p' k g q Hs Hq). apply in_combine_r in Hip. destruct (in2_right _ _ _ R1 p' Hip) as ([j p] & Hj & Ej).
        destruct (Hu j p Hj) as (Hc & _). destruct (rebin_peak_spec p md Hc) as (p2 & Er2 & Hc' & _). rewrite Ej in Er2. injection Er2 as <-. pose proof (rebin_not_negative _ _ _ (Nneg j p Hj) Ej) as Hn'.
        unfold energy_at. apply sumF_nonneg. intros r Hr. apply (Hn' r); [assumption|]. apply nth_In. destruct Hc' as (M1 & _ & _ & _ & Lp & _). unfold is_mat in M1. rewrite Forall_forall in M1. rewrite (M1 r Hr), Lp. lia. }
      intros Nneg Br Same.
      assert (M : mergeable same_peak hE t).
      { assert (TI : forall h, In h t -> exists q, In q made /\ row_of_hit q h /\ hE h = Some (q_E q)). { intros h Hh. destruct (in2_right _ _ _ TR h Hh) as (q & Hq & Rq & Eq). exists q. now repeat split; try apply Rq. }
        split; [|split].
        - intros h Hh. destruct (TI h Hh) as (q & _ & _ & E). exists (q_E q). exact E.
        - intros h Hh Hnn. destruct (TI h Hh) as (q & Hq & Rq & E). exists (q_E q). split; [exact E|]. destruct (O q Hq) as (i & p & k & Hp' & _ & Hk & _ & [[X _]|(_ & _ & P)]); [|apply P, Br; assumption]. exfalso. apply Hnn. unfold NNhit. destruct Rq as (_ & _ & _ & _ & ->). exact X.
        - intros nn Hh Hnn. destruct (TI nn Hh) as (q & Hq & Rq & E). assert (G : exists g, In g made /\ with_position g = true /\ (same_peak = true -> q_npeak g = q_npeak q)).
          { destruct (O q Hq) as (i & p & k & Hp' & Hip & Hk & Hn & _). destruct same_peak; [|exists h0; repeat split; [assumption..|discriminate]]. destruct (W i p Hip (Same eq_refl p Hp')) as (g & G1 & G2 & G3). exists g. repeat split; [assumption..|]. intros _. congruence. }
          destruct G as (g & Hg & Wg & Ng). destruct (in2_left _ _ _ TR g Hg) as (cc & Hc & Rc & Ecc). exists cc. split; [exact Hc|]. split.
          + unfold NNhit. destruct Rc as (_ & _ & _ & _ & ->). unfold with_position in Wg. destruct (Qeqb_spec (q_Q g) HitsModel.NN); [discriminate|assumption].
          + intros Sp. destruct Rc as (-> & _). destruct Rq as (-> & _). now apply Ng. }
      destruct (C18_merge_conserves_energy same_peak false t M) as (_ & _ & Etot & _). fold merged in Etot.
      assert (FIN : forall h, In h merged -> finite (hE h)) by (apply merged_finite; exact M).
      split; [exact FIN|]. rewrite Etot, (table_energy _ _ TR). subst made. clear -R1 R2 Nneg Hu thr_pos. unfold event_energy.
      assert (G : forall chosen rebinned groups, Forall2 (fun '(i, p) p' => rebin_peak p md = Ok p') chosen rebinned -> Forall2 (fun ip hs => hits_of_peak xys v t0 ch greco thr (fst ip) (snd ip) hs) (combine (map fst chosen) rebinned) groups ->
        (forall i p, In (i, p) chosen -> not_negative p) -> (forall i p, In (i, p) chosen -> usable xys p) ->
        sumF q_E (concat groups) <= sumF (fun ip => peak_energy (snd ip)) chosen /\ sumF (fun ip : nat * peak => peak_energy (snd ip)) chosen * thr <= sumF q_E (concat groups) * (thr + EPSILON)); [|now apply (G chosen rebinned groups)].
      clear -thr_pos. intros chosen rebinned groups R1. revert groups. induction R1 as [|[i p] p' chosen rebinned E R1 IH]; intros groups R2 Nn Hu; inversion R2 as [|? hs ? gs H R2']; subst; [unfold sumF; cbn; lra|].
      cbn [concat]. rewrite sumF_app, !sumF_cons. cbn [fst snd] in *. destruct (Hu i p (or_introl eq_refl)) as (Hc & _). destruct (C70_energy_of_a_peak xys v t0 ch greco thr i md p p' hs Hc (Nn i p (or_introl eq_refl)) thr_pos E H) as [A B].
      destruct (IH gs R2') as [A' B']; [intros; eapply Nn; right; eassumption|intros; eapply Hu; right; eassumption|].
      set (a := sumF q_E hs) in *. set (b := sumF q_E (concat gs)) in *. set (e := peak_energy p) in *. set (f := sumF _ chosen) in *. clearbody a b e f. split; [lra|]. rewrite !Qmult_plus_distr_l. lra.
  Qed.
End Event.
Print Assumptions C103_event.

(** nothing is written of an event that does not pass the selection *)
Theorem C103_not_passing nearest xys v noise sw ct greco c s a b thr same_peak corr pm ev ts : mk_selector c = Ok s ->
  ~ (exists n1 n2, how_many (good_s1 c) (s1s pm) n1 /\ how_many (good_s2 c) (s2s pm) n2 /\ between (s1_n c) (qn n1) /\ between (s2_n c) (qn n2)) ->
  sophronia_hits nearest xys v noise sw ct greco s a b thr same_peak corr pm ev ts = Ok None.
Proof.
  intros H N. unfold sophronia_hits. destruct (passed (pmap_filter s pm)) eqn:E; [|reflexivity]. exfalso. apply N. now apply (C36_selection c s pm H).
Qed.
Print Assumptions C103_not_passing.
(** an event that passes without an S2 that fulfils the limits ends the city *)
Lemma none_picked {A} (P : A -> Prop) l flags i : Forall2 (fun p b => b = true <-> P p) l flags -> (forall p, In p l -> ~ P p) -> picked i flags l [].
Proof.
  intros F. revert i. induction F as [|p b l flags H F IH]; intros i N; [constructor|]. destruct b; [exfalso; apply (N p (or_introl eq_refl)); now apply H|]. constructor. apply IH. intros q Hq. apply N. now right.
Qed.
Lemma some_picked {A} (P : A -> Prop) l flags i o : Forall2 (fun p b => b = true <-> P p) l flags -> picked i flags l o -> (exists p, In p l /\ P p) -> o <> [].
Proof.
  intros F. revert i o. induction F as [|p b l flags H F IH]; intros i o K (q & Hq & Pq); [easy|]. inversion K; subst; [discriminate|]. destruct Hq as [<-|Hq]; [apply H in Pq; discriminate|]. eapply IH; eauto.
Qed.
Theorem C103_no_s2 nearest xys v noise sw ct greco c s a b thr same_peak corr pm ev ts : mk_selector c = Ok s -> passed (pmap_filter s pm) = true ->
  (forall p, In p (s2s pm) -> ~ good_s2 c p) ->
  let result := sophronia_hits nearest xys v noise sw ct greco s a b thr same_peak corr pm ev ts in
  ((forall p, In p (s1s pm) -> ~ good_s1 c p) -> result = Err IndexError) /\ ((exists p, In p (s1s pm) /\ good_s1 c p) -> result = Err ValueError).
Proof.
  intros Hs Hp N2. cbv zeta. unfold sophronia_hits. rewrite Hp. cbn [negb]. destruct (C36_selection c s pm Hs) as (F1 & F2 & _). pose proof (none_picked _ _ _ 0 F2 N2) as K2. split.
  - intros N1. pose proof (none_picked _ _ _ 0 F1 N1) as K1. now rewrite (C70_nothing_selected xys v noise sw ct greco a b thr pm _ ev ts K1 K2).
  - intros S1. pose proof (picked_selected_from 0 (s1_peaks (pmap_filter s pm)) (s1s pm) (eq_sym (Forall2_len _ _ _ F1))) as K1. pose proof (some_picked _ _ _ _ _ F1 K1 S1) as NE.
    match type of K1 with picked _ _ _ ?o => set (o' := o) in * end. destruct o' as [|[i p] rest]; [easy|].
    rewrite (C70_no_s2_selected xys v noise sw ct greco a b thr pm _ ev ts (time_at_max_energy p)); [reflexivity| |exact K2]. left. exists i, p, rest. split; [exact K1|reflexivity].
Qed.
Print Assumptions C103_no_s2.

(** ---- examples ---- *)
Definition ev_limits : limits :=
  {| s1_n := (0, 2); s1_e := (0, 1000); s1_w := (0, 1000000); s1_h := (0, 1000); s1_thr := 0;
     s2_n := (1, 2); s2_e := (0, 1000); s2_w := (0, 1000000); s2_h := (0, 1000); s2_nsipm := (1, 5); s2_thr := 0 |}.
Definition ev_s := match mk_selector ev_limits with Ok s => s | Err _ => {| sl_s1n := {| mn := 0; mx := 0 |}; sl_s1e := {| mn := 0; mx := 0 |}; sl_s1w := {| mn := 0; mx := 0 |}; sl_s1h := {| mn := 0; mx := 0 |}; sl_s1_ethr := 0; sl_s2n := {| mn := 0; mx := 0 |}; sl_s2e := {| mn := 0; mx := 0 |}; sl_s2w := {| mn := 0; mx := 0 |}; sl_s2h := {| mn := 0; mx := 0 |}; sl_nsi := {| mn := 0; mx := 0 |}; sl_s2_ethr := 0 |} end.
(** a peak whose SiPMs stay below threshold *)
Definition dim_s2 (t : Q) : peak :=
  {| p_times := [t; t + 1000; t + 2000; t + 3000]; p_widths := [1000; 1000; 1000; 1000];
     p_pmts := {| r_ids := [0; 1]%nat; r_wfs := {| cols := 4; rows := [[1; 2; 3; 4]; [1; 1; 1; 1]] |} |};
     p_sipms := {| r_ids := [2; 0]%nat; r_wfs := {| cols := 4; rows := [[0; 0; 1 # 2; 0]; [0; 0; 0; 0]] |} |} |}.
Definition ev_out (same_peak : bool) (corr : option corrections) (pm : pmap) : option (list (nat * Q * Q * option Q * option Q)) :=
  match sophronia_hits first_nearest ex_xys (1 # 1000) (fun _ qs _ => qs) (fun _ => 1%Z) Raw ex_greco ev_s (fst (args_of (ByStride 1))) (snd (args_of (ByStride 1))) 1 same_peak corr pm 7 5000 with
  | Ok (Some (Some out)) => Some (map (fun h => (npeak h, hX h, Qred (hZ h), option_map Qred (hE h), option_map Qred (hEc h))) out)
  | _ => None
  end.
Definition ev_corr : corrections := {| k_map := map_ex; k_dvs := [Some 2]; k_method := Maximum; k_xy := None; k_temp := false; k_z := true |}.
Definition ev_pmap : pmap := {| s1s := [ex_s1]; s2s := [ex_s2 3000; dim_s2 10125] |}.
Example C103_ex : mk_selector ev_limits = Ok ev_s /\ passed (pmap_filter ev_s ex_pmap) = true /\ picked 0 (s2_peaks (pmap_filter ev_s ex_pmap)) (s2s ex_pmap) [(0%nat, ex_s2 3000); (1%nat, ex_s2 10125)] /\
  global_ends ex_greco /\ takes_nearest first_nearest /\ usable_corrections (Some ev_corr) /\ (forall t, usable ex_xys (ex_s2 t) /\ not_negative (ex_s2 t)) /\ (exists p', rebin_peak (ex_s2 3000) (ByStride 1) = Ok p' /\ bright p' /\ lights_up (charge_of Raw (fun _ qs _ => qs) (fun _ => 1%Z)) 1 p') /\
  option_map (map (fun '(n, x, z, _, _) => (n, x, z))) (ev_out true (Some ev_corr) ex_pmap) = Some [(0%nat, 20, 31 # 4); (0%nat, 20, 39 # 4); (0%nat, 0, 39 # 4); (1%nat, 20, 22); (1%nat, 20, 24); (1%nat, 0, 24)].
Proof.
  split; [reflexivity|]. split; [vm_compute; reflexivity|]. split; [assert (E : s2_peaks (pmap_filter ev_s ex_pmap) = [true; true]) by (vm_compute; reflexivity); rewrite E; repeat constructor|].
  split; [apply C70_hypotheses|]. split; [apply first_nearest_ok|]. split; [split; [apply map_ex_usable|split; [reflexivity|discriminate]]|]. split.
  { intros t. split; [split; [apply ex_consistent|split; [discriminate|repeat constructor]]|]. intros r x Hr Hx. cbn in Hr. destruct Hr as [<-|[<-|[]]]; cbn in Hx; intuition (subst; lra). }
  split; [|vm_compute; reflexivity]. eexists. split; [vm_compute; reflexivity|]. split.
  - intros k Hk. cbn [length p_times] in Hk. do 4 (destruct k as [|k]; [vm_compute; reflexivity|]). lia.
  - exists 1%nat. split; [cbn; lia|]. vm_compute. discriminate.
Qed.
Example C103_no_s2_ex : passed (pmap_filter (match mk_selector {| s1_n := (0, 2); s1_e := (0, 1000); s1_w := (0, 1000000); s1_h := (0, 1000); s1_thr := 0; s2_n := (0, 2); s2_e := (0, 1); s2_w := (0, 1000000); s2_h := (0, 1000); s2_nsipm := (1, 5); s2_thr := 0 |} with Ok s => s | Err _ => ev_s end) ex_pmap) = true /\
  passed (pmap_filter ev_s {| s1s := []; s2s := [] |}) = false.
Proof. split; vm_compute; reflexivity. Qed.

(** with the hits of the same peak only, the energy of an S2 whose SiPMs stay below threshold is lost, although the event is written *)
Lemma lost_check : match sophronia_hits first_nearest ex_xys (1 # 1000) (fun _ qs _ => qs) (fun _ => 1%Z) Raw ex_greco ev_s (fst (args_of (ByStride 1))) (snd (args_of (ByStride 1))) 1 true None ev_pmap 7 5000 with
  | Ok (Some (Some out)) => Qle_bool (total hE out * 2) (event_energy [(0%nat, ex_s2 3000); (1%nat, dim_s2 10125)]) | _ => false end = true.
Proof. vm_compute. reflexivity. Qed.
Theorem C103_lost_refuted : exists pm chosen out, passed (pmap_filter ev_s pm) = true /\ picked 0 (s2_peaks (pmap_filter ev_s pm)) (s2s pm) chosen /\ (forall i p, In (i, p) chosen -> usable ex_xys p /\ not_negative p) /\
  sophronia_hits first_nearest ex_xys (1 # 1000) (fun _ qs _ => qs) (fun _ => 1%Z) Raw ex_greco ev_s (fst (args_of (ByStride 1))) (snd (args_of (ByStride 1))) 1 true None pm 7 5000 = Ok (Some (Some out)) /\
  total hE out * 2 <= event_energy chosen.
Proof.
  pose proof lost_check as L. destruct (sophronia_hits _ _ _ _ _ _ _ _ _ _ _ _ _ ev_pmap _ _) as [[[out|]|]|] eqn:E; try discriminate. exists ev_pmap, [(0%nat, ex_s2 3000); (1%nat, dim_s2 10125)], out.
  split; [vm_compute; reflexivity|]. split; [assert (E2 : s2_peaks (pmap_filter ev_s ev_pmap) = [true; true]) by (vm_compute; reflexivity); rewrite E2; repeat constructor|]. split; [|split; [exact E|now apply Qle_bool_iff]].
  intros i p [H|[H|[]]]; injection H as <- <-.
  - split; [split; [apply ex_consistent|split; [discriminate|repeat constructor]]|]. intros r x Hr Hx. cbn in Hr. destruct Hr as [<-|[<-|[]]]; cbn in Hx; intuition (subst; lra).
  - split; [split; [|split; [discriminate|repeat constructor]]|].
    + unfold consistent, is_mat. cbn. repeat split; try lia; repeat constructor.
    + intros r x Hr Hx. cbn in Hr. destruct Hr as [<-|[<-|[]]]; cbn in Hx; intuition (subst; lra).
Qed.
Print Assumptions C103_lost_refuted.
