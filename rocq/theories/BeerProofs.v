(** Lemmas about an event of Beersheba *)
From Verif Require Import Base Arrays PeaksModel PeaksProofs BuffersProofs BuffersEvent WfmProps PmapioProofs DbModel DbProps CorrModel CorrSpec CorrProps CorrMore PsfModel PsfSpec PsfProps PsfSplit PsfPeak DeconvModel DeconvSpec DeconvProps DeconvPeak DeconvClusters.
From Verif Require Import HitsModel HitsSpec HitsProofs HitsProps EsmModel EsmSpec EsmProps BeerModel BeerSpec.
From Coq Require Import Qabs.
Local Open Scope Q_scope.

Lemma in_right {A B} {R : A -> B -> Prop} {l l' b} : Forall2 R l l' -> In b l' -> exists a, In a l /\ R a b.
Proof. induction 1 as [|x y l l' H F IH]; intros I; [destruct I|]. destruct I as [->|I]; [exists x; split; [now left|assumption]|]. destruct (IH I) as (a & Ia & Ra). exists a. split; [now right|assumption]. Qed.
Lemma to_rows_spec l : forall i ds, to_rows i l = Ok ds -> Forall2 row_of l ds /\ map d_index ds = seq i (length l).
Proof.
  induction l as [|h l IH]; intros i ds E; cbn [to_rows] in E; [injection E as <-; split; [constructor|reflexivity]|].
  unfold to_row in E. destruct (hE h) as [e|] eqn:E1; [|discriminate]. destruct (hEc h) as [ec|] eqn:E2; [|discriminate]. cbn [rbind] in E. destruct (to_rows (S i) l) as [ds'|] eqn:R; [|discriminate]. cbn [rbind] in E. injection E as <-.
  destruct (IH _ _ R) as [F M]. split; [constructor; [|assumption]|cbn; now rewrite M]. exists e, ec. cbn. auto 10.
Qed.
Lemma to_rows_ok l : (forall h, In h l -> finite (hE h) /\ finite (hEc h)) -> forall i, exists ds, to_rows i l = Ok ds.
Proof.
  induction l as [|h l IH]; intros H i; cbn [to_rows]; [eexists; reflexivity|]. destruct (H h (or_introl eq_refl)) as [[e E1] [ec E2]]. unfold to_row. rewrite E1, E2. cbn [rbind]. destruct (IH (fun g Hg => H g (or_intror Hg)) (S i)) as [ds ->]. eexists. reflexivity.
Qed.
Lemma same_hit_forall2 n all kept out : redistributed n all kept out -> Forall2 same_hit kept out.
Proof. intros [_ F]. eapply Forall2_mono; [|exact F]. intros a b _ [S _]. exact S. Qed.
Lemma forall2_nil {A B} (R : A -> B -> Prop) l : Forall2 R l [] -> l = [].
Proof. intros F. now inversion F. Qed.
Lemma redistributed_nonempty n all kept out : redistributed n all kept out -> (kept = [] <-> out = []).
Proof. intros [_ F]. split; intros ->; inversion F; reflexivity. Qed.
Lemma per_peak_labels f df out : per_peak f df = Ok out -> NoDup (map d_index df) -> NoDup (map d_index out).
Proof.
  unfold per_peak. destruct df as [|h l]; [intros E; injection E as <-; auto|]. destruct (rmap _ _) as [ls|]; [|discriminate]. cbn [rbind]. intros E _. injection E as <-.
  assert (M : forall l i, map d_index (mapi_from i (fun i h => {| d_index := i; d_peak := d_peak h; dX := dX h; dY := dY h; dZ := dZ h; dQ := dQ h; dvars := dvars h |}) l) = seq i (length l)) by (induction l0 as [|a l0 IH]; intros i; cbn; [reflexivity|now rewrite IH]).
  unfold renumber, mapi. rewrite M. apply seq_NoDup.
Qed.
(** cleaning an event *)
Lemma cleaned q distance nhits df d1 dd : sensible distance nhits -> NoDup (map d_index df) -> cut_over_Q q 2 df = Ok d1 -> drop_isolated distance nhits 2 d1 = Ok dd ->
  forall k, clean q distance nhits (filter (fun h => key_eqb k (d_peak h)) df) (filter (fun h => key_eqb k (d_peak h)) dd) /\
    (filter (fun h => key_eqb k (d_peak h)) dd <> [] -> forall i, (i < 2)%nat -> DeconvSpec.total i (filter (fun h => key_eqb k (d_peak h)) dd) == DeconvSpec.total i (filter (fun h => key_eqb k (d_peak h)) df)).
Proof.
  intros Se U E1 E2 k. set (h0 := filter _ df). set (h2 := filter _ dd). set (h1 := filter (fun h => key_eqb k (d_peak h)) d1).
  assert (U1 : NoDup (map d_index d1)) by (eapply per_peak_labels; eassumption).
  destruct (C43_event_cut q 2 df d1 E1 k h0 h1) as (kept1 & K1 & R1); [now apply picks_filter|now apply picks_filter|].
  assert (T1 : kept1 <> [] -> forall i, (i < 2)%nat -> DeconvSpec.total i h1 == DeconvSpec.total i h0) by (intros NE i Hi; now apply (C43_conserved 2 h0 kept1 h1 R1 NE i)).
  assert (X : exists kept2, not_isolated distance nhits h1 kept2 /\ redistributed 2 h1 kept2 h2).
  { unfold sensible in Se. destruct distance as [|dx [|dy [|dz [|]]]]; try contradiction.
    - apply (C43_event_sensors dx dy nhits 2 d1 dd E2 k); now apply picks_filter.
    - destruct nhits as [n|]; [|contradiction]. destruct Se as (X & Y & Z & N). destruct (C43_event_clusters dx dy dz n 2 d1 dd X Y Z U1 N E2 k h1 h2) as [[H1 H2]|(kept2 & _ & K2 & K3 & K4)]; [now apply picks_filter|now apply picks_filter| |].
      + exists []. rewrite H1, H2. split; [|apply redistributed_nil]. cbn. split; [constructor|]. intros h. tauto.
      + exists kept2. split; [|assumption]. split; assumption. }
  destruct X as (kept2 & K2 & R2). split.
  - exists kept1, h1, kept2. split; [assumption|]. split; [eapply same_hit_forall2; eassumption|]. split; [assumption|]. eapply same_hit_forall2; eassumption.
  - intros NE i Hi. assert (N2 : kept2 <> []) by (intros C; apply NE; now apply (redistributed_nonempty _ _ _ _ R2)).
    assert (N1 : h1 <> []). { intros C. apply N2. destruct kept2 as [|a l]; [reflexivity|]. exfalso. assert (I : In a h1); [|rewrite C in I; destruct I]. clear - K2. unfold not_isolated in K2. destruct distance as [|dx [|dy [|dz [|]]]]; try contradiction.
      - revert K2. generalize (has_neighbour dx dy h1). intros P K. remember (a :: l) as m eqn:M. revert M. induction K as [|b l' m P' K IH|b l' m P' K IH]; intros M; [discriminate|injection M as -> ->; now left|right; auto].
      - destruct nhits; [|contradiction]. destruct K2 as [_ K2]. apply K2. now left. }
    rewrite (proj1 (C43_conserved 2 h1 kept2 h2 R2 N2 i Hi)). apply T1; [|assumption]. intros C. apply N1. now apply (redistributed_nonempty _ _ _ _ R1).
Qed.
Lemma proportional_eq rnd px e e' rows : e == e' -> proportional rnd px e rows -> proportional rnd px e' rows.
Proof. intros E (x & X1 & X2 & X3 & X4). exists x. split; [now rewrite X1|]. split; [assumption|]. split; [assumption|]. eapply Forall2_mono; [|exact X4]. intros p v _ H. cbn beta in *. now rewrite <- E. Qed.

(** the total of a column, peak by peak *)
Lemma total_peaks {A} (key_of : A -> key) (f : A -> Q) keys l : distinct_list keys -> (forall a, In a l -> exists k, In k keys /\ same_key k (key_of a)) ->
  sumF f l == sumF (fun k => sumF f (filter (fun a => key_eqb k (key_of a)) l)) keys.
Proof.
  intros D. induction l as [|a l IH]; intros C.
  - cbn [filter]. symmetry. apply sumF_zero. reflexivity.
  - rewrite sumF_cons, IH by (intros; apply C; now right). transitivity (sumF (fun k => (if key_eqb k (key_of a) then f a else 0) + sumF f (filter (fun a => key_eqb k (key_of a)) l)) keys).
    + rewrite sumF_plus. apply Qplus_comp; [|reflexivity]. destruct (C a (or_introl eq_refl)) as (k & Ik & Sk). clear - D Ik Sk. induction D as [|x l H D IH]; [destruct Ik|]. rewrite sumF_cons. destruct Ik as [->|Ik].
      * rewrite (proj2 (key_eqb_iff _ _) Sk). rewrite sumF_zero; [lra|]. intros y Hy. destruct (key_eqb y (key_of a)) eqn:E; [|reflexivity]. exfalso. apply key_eqb_iff in E. rewrite Forall_forall in H. apply (H y Hy). eapply same_trans; [exact Sk|now apply same_sym].
      * destruct (key_eqb x (key_of a)) eqn:E; [|rewrite IH by assumption; lra]. exfalso. apply key_eqb_iff in E. rewrite Forall_forall in H. apply (H k Ik). eapply same_trans; [exact E|now apply same_sym].
    + apply sumF_ext. intros k _. cbn [filter]. destruct (key_eqb k (key_of a)); [rewrite sumF_cons|]; lra.
Qed.
(** what remains after the threshold has positive energies and a charge at least the threshold *)
Lemma merged_positive th sp hits : 0 < th -> (forall h, In h hits -> 0 <= val (hE h)) -> forall h, In h (threshold_hits_and_merge_nn th sp hits) -> th <= hQ h /\ HitsSpec.positive (hE h).
Proof.
  intros Ht He. set (mid := threshold_hits th hits).
  assert (Hmid : forall h, In h mid -> (th <= hQ h /\ HitsSpec.positive (hE h)) \/ (hQ h = NN /\ exists e, hE h = Some e /\ 0 <= e)).
  { intros h Hh. assert (Hs : In h (slice_at (hZ h) mid)) by (apply slice_in; split; [assumption|reflexivity]).
    unfold mid in Hs. rewrite threshold_slices in Hs by assumption. set (s := slice_at (hZ h) hits) in *.
    assert (HE : 0 <= HitsSpec.total hE s) by (apply sumF_nonneg; intros g Hg; apply He; now apply slice_in in Hg).
    destruct (apply_threshold_spec th s Ht) as [(Hne & F & _)|[(_ & f & r & nn & Es & Eo & _ & _ & _ & _ & _ & HQ & (e & E1 & E2) & _)|[_ Eo]]].
    - left. set (sel := filter _ s) in *. assert (Hsel : forall g, In g sel -> th <= hQ g) by (intros g Hg; apply filter_In in Hg; now apply Qleb_le).
      assert (Q0 := sumF_ge sel th Ht Hsel Hne). destruct (in_right F Hs) as (g & Ig & (S1 & S2 & S3 & S4 & S5 & S6) & (e & E1 & E2) & _). rewrite S6. split; [now apply Hsel|]. exists e. split; [assumption|].
      pose proof eps_pos. assert (0 < hQ g * (HitsSpec.total hE s + EPSILON)) by (apply Qmult_lt_0_compat; [specialize (Hsel g Ig); lra|lra]). rewrite <- E2 in H0. destruct (Qlt_le_dec 0 e) as [|L]; [assumption|exfalso]. assert (0 <= (- e) * (sumF hQ sel + EPSILON)) by (apply Qmult_le_0_compat; lra). lra.
    - right. rewrite Eo in Hs. destruct Hs as [<-|[]]. split; [assumption|]. exists e. split; [assumption|]. lra.
    - rewrite Eo in Hs. destruct Hs. }
  unfold threshold_hits_and_merge_nn. fold mid. intros h. unfold merge_NN_hits. destruct (existsb is_nn mid) eqn:X.
  - intros Hh. apply in_map_iff in Hh. destruct Hh as (g & <- & Hg). cbn [hQ hE]. set (rest := filter (fun h => negb (is_nn h)) mid) in *. set (nns := filter is_nn mid).
    assert (Hr : forall g, In g rest -> th <= hQ g /\ HitsSpec.positive (hE g)). { intros x Hx. apply filter_In in Hx. destruct Hx as [Hx Nx]. apply is_nn_not in Nx. destruct (Hmid x Hx) as [|[C _]]; [assumption|]. exfalso. apply Nx. unfold NNhit. now rewrite C. }
    assert (Hn : forall g, In g nns -> exists e, hE g = Some e /\ 0 <= e). { intros x Hx. apply filter_In in Hx. destruct Hx as [Hx Nx]. destruct (Hmid x Hx) as [[_ (e & E & P)]|[_ H]]; [exists e; split; [assumption|lra]|assumption]. }
    destruct (Hr g Hg) as [Q1 (b & Eb & Pb)]. split; [assumption|]. unfold corrected.
    assert (C : forall nn, In nn nns -> exists c, correction sp rest hE nn g = Some c /\ 0 <= c).
    { intros nn Hnn. unfold correction. destruct (closest sp rest nn g) eqn:Cl; [|exists 0; split; [reflexivity|lra]]. destruct (Hn nn Hnn) as (a & Ea & Pa). rewrite Ea, Eb, nansum_total. cbn [nmul ndiv].
      assert (P : 0 < HitsSpec.total hE (filter (closest sp rest nn) rest)). { assert (I : In g (filter (closest sp rest nn) rest)) by (apply filter_In; auto). assert (A : forall x, In x (filter (closest sp rest nn) rest) -> 0 < val (hE x)) by (intros x Hx; apply filter_In in Hx; destruct (Hr x (proj1 Hx)) as [_ (v & Ev & Pv)]; rewrite Ev; exact Pv).
        revert I A. unfold HitsSpec.total. generalize (filter (closest sp rest nn) rest). clear. intros l I A. destruct l as [|x l]; [destruct I|]. rewrite sumF_cons. assert (0 < val (hE x)) by (apply A; now left). assert (0 <= sumF (fun h => val (hE h)) l) by (apply sumF_nonneg; intros y Hy; apply Qlt_le_weak, A; now right). lra. }
      destruct (Qeqb_spec (HitsSpec.total hE (filter (closest sp rest nn) rest)) 0) as [Z|Z]; [exfalso; lra|]. eexists. split; [reflexivity|]. apply Qle_shift_div_l; [assumption|]. rewrite Qmult_0_l. apply Qmult_le_0_compat; lra. }
    assert (Fo : forall l a, (forall nn, In nn l -> In nn nns) -> 0 <= a -> exists v, fold_left (fun acc nn => nadd acc (correction sp rest hE nn g)) l (Some a) = Some v /\ 0 <= v).
    { clear - C. induction l as [|n l IH]; intros a S P; cbn [fold_left]; [eauto|]. destruct (C n (S n (or_introl eq_refl))) as (c & -> & Pc). cbn [nadd]. apply IH; [intros; apply S; now right|lra]. }
    destruct (Fo nns 0 (fun _ H => H) ltac:(lra)) as (v & -> & Pv). rewrite Eb. cbn [nadd]. exists (b + v). split; [reflexivity|lra].
  - intros Hh. destruct (Hmid h Hh) as [|[C _]]; [assumption|]. exfalso. assert (existsb is_nn mid = true); [|congruence]. apply existsb_exists. exists h. split; [assumption|]. apply is_nn_iff. unfold NNhit. now rewrite C.
Qed.
Lemma merged_both th sp hits : 0 < th -> (forall h, In h hits -> 0 <= val (hE h) /\ 0 <= val (hEc h)) -> forall h, In h (threshold_hits_and_merge_nn th sp hits) -> th <= hQ h /\ HitsSpec.positive (hE h) /\ HitsSpec.positive (hEc h).
Proof.
  intros Ht He h Hh. destruct (merged_positive th sp hits Ht (fun h H => proj1 (He h H)) h Hh) as [H1 H2]. split; [assumption|]. split; [assumption|].
  assert (I : In (swap h) (threshold_hits_and_merge_nn th sp (map swap hits))) by (rewrite thresholder_swap; now apply in_map).
  assert (K : forall g, In g (map swap hits) -> 0 <= val (hE g)) by (intros g Hg; apply in_map_iff in Hg; destruct Hg as (g' & <- & Hg); apply (He g' Hg)). apply (merged_positive th sp _ Ht K (swap h) I).
Qed.
