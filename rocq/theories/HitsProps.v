(** Properties C17, C18 and C19 *)
From Verif Require Import Base PeaksModel PeaksMore HitsModel HitsSpec HitsProofs BuffersEvent.
Local Open Scope Q_scope.

(** ** C17 *)
Theorem C17_slice_energy_shared xys qs thr energy :
  length xys = length qs -> (forall q, In q qs -> thr <= q -> 0 <= q) ->
  let sel := filter (fun p => Qle_bool thr (snd p)) (combine xys qs) in
  let Qsum := sumF snd sel in
  exists hits, sipms_above_threshold xys qs thr energy = Ok hits /\
  ((sel = [] /\ hits = [ {| sx := NN; sy := NN; sq := NN; se := energy |} ]) \/
   (sel <> [] /\ sumF se hits * (Qsum + EPSILON) == Qsum * energy /\
    Forall2 (fun p h => sx h = fst (fst p) /\ sy h = snd (fst p) /\ sq h = snd p /\
                        se h * (Qsum + EPSILON) == snd p * energy) sel hits)).
Proof.
  intros Hl Hq. cbv zeta. unfold sipms_above_threshold. rewrite Hl, Nat.eqb_refl. cbn [negb].
  set (sel := filter _ _). destruct sel as [|p0 sel'] eqn:Es; [eexists; split; [reflexivity|]; left; auto|].
  rewrite <- Es in *.
  assert (Hs : forall p, In p sel -> 0 <= snd p).
  { intros [xy q] Hp. unfold sel in Hp. apply filter_In in Hp. destruct Hp as [Hp Hle]. cbn [snd] in *. apply Hq; [|now apply Qleb_le].
    eapply in_combine_r; exact Hp. }
  assert (HQ : 0 <= sumF snd sel) by now apply sumF_nonneg.
  pose proof eps_pos as He. assert (Ne : ~ sumF snd sel + EPSILON == 0) by lra.
  unfold e_from_q. change (sumQ (map snd sel)) with (sumF snd sel).
  destruct (Qeqb_spec (sumF snd sel + EPSILON) 0) as [C|_]; [contradiction|]. cbn [rbind].
  set (D := sumF snd sel + EPSILON) in *. rewrite map_map.
  eexists. split; [reflexivity|]. right. split; [rewrite Es; discriminate|].
  assert (K : forall l, map2 (fun p e => {| sx := fst (fst p); sy := snd (fst p); sq := snd p; se := e |}) l (map (fun x => snd x * energy / D) l)
             = map (fun p : Q * Q * Q => {| sx := fst (fst p); sy := snd (fst p); sq := snd p; se := snd p * energy / D |}) l).
  { induction l as [|a l IH]; [reflexivity|]. cbn [map map2]. now rewrite IH. }
  rewrite K. split.
  - rewrite sumF_map. cbn [se]. rewrite sumF_ext with (g := fun p => snd p * (energy / D)) by (intros; field; assumption).
    rewrite sumF_scale_r. field. assumption.
  - clear -Ne. clearbody D sel. induction sel as [|p sel IH]; constructor; [|assumption]. cbn. do 3 (split; [reflexivity|]). field. assumption.
Qed.

Example C17_ex : sipms_above_threshold [(1, 2); (3, 4); (5, 6)] [2; 1; 6] 2 16 =
  Ok [ {| sx := 1; sy := 2; sq := 2; se := 2 * 16 / (8 + EPSILON) |}; {| sx := 5; sy := 6; sq := 6; se := 6 * 16 / (8 + EPSILON) |} ].
Proof. vm_compute. reflexivity. Qed.
Example C17_ex_nn : sipms_above_threshold [(1, 2); (3, 4)] [2; 1] 3 16 = Ok [ {| sx := NN; sy := NN; sq := NN; se := 16 |} ].
Proof. reflexivity. Qed.

(** ** C18 *)
(** every NN hit has somebody to give its energy to, and the receivers have energy *)
Definition mergeable (same_peak : bool) (col : hit -> num) (hits : list hit) : Prop :=
  (forall h, In h hits -> finite (col h)) /\
  (forall h, In h hits -> ~ NNhit h -> positive (col h)) /\
  (forall nn, In nn hits -> NNhit nn -> exists c, In c hits /\ ~ NNhit c /\ eligible same_peak nn c).

Definition others (hits : list hit) : list hit := filter (fun h => negb (is_nn h)) hits.
Lemma others_in h hits : In h (others hits) <-> In h hits /\ ~ NNhit h.
Proof. unfold others. now rewrite filter_In, is_nn_not. Qed.

Lemma mergeable_shares sp col hits : mergeable sp col hits -> forall n, In n (filter is_nn hits) ->
  shares_ok sp (others hits) col n /\ finite (col n).
Proof.
  intros (Hf & Hp & Hc) n Hn. apply filter_In in Hn. destruct Hn as [Hn En]. apply is_nn_iff in En. split; [|now apply Hf].
  destruct (Hc n Hn En) as (c & Ic & Nc & Ec).
  assert (X : exists c, In c (others hits) /\ eligible sp n c) by (exists c; split; [now apply others_in|assumption]).
  split; [assumption|]. destruct (dz_min_spec sp _ _ X) as (m & Hm & Em & Edz & Hmin).
  assert (Hcl : In m (filter (closest sp (others hits) n) (others hits))).
  { apply filter_In. split; [assumption|]. apply closest_iff; [assumption|]. split; [assumption|]. exists m. do 3 (split; [assumption|]).
    setoid_replace (dist n m - dist n m) with 0 by ring. change (Qabs 0) with 0. pose proof (dist_nonneg n m). lra. }
  set (cl := filter _ _) in *. assert (P : forall h, In h cl -> positive (col h)).
  { intros h Hh. unfold cl in Hh. apply filter_In in Hh. destruct Hh as [Hh _]. apply others_in in Hh. now apply Hp. }
  clearbody cl. assert (0 < total col cl); [|lra]. destruct cl as [|a cl]; [easy|]. rewrite total_cons.
  destruct (P a (or_introl eq_refl)) as (q & Eq & Hq). rewrite Eq. cbn [val].
  assert (0 <= total col cl); [|lra]. apply sumF_nonneg. intros h Hh. destruct (P h (or_intror Hh)) as (q' & E' & H'). rewrite E'. cbn [val]. lra.
Qed.

Theorem C18_merge_conserves_energy same_peak has_ec hits :
  mergeable same_peak hE hits ->
  let out := merge_NN_hits has_ec same_peak hits in
  (forall h, In h out -> ~ NNhit h) /\ Forall2 same_row (filter (fun h => negb (Qeqb (hQ h) NN)) hits) out /\
  total hE out == total hE hits /\
  (has_ec = true -> mergeable same_peak hEc hits -> total hEc out == total hEc hits).
Proof.
  intros M. cbv zeta. unfold merge_NN_hits. change (filter (fun h => negb (Qeqb (hQ h) NN)) hits) with (others hits).
  destruct (existsb is_nn hits) eqn:Ex.
  - fold (others hits). split; [|split; [|split]].
    + intros h Hh. apply in_map_iff in Hh. destruct Hh as (x & <- & Hx). apply others_in in Hx. unfold NNhit. cbn [hQ]. apply Hx.
    + match goal with |- Forall2 _ ?l (map ?f ?l) =>
        assert (K : forall m, Forall2 same_row m (map f m)) by (induction m as [|a m IH]; constructor; [repeat split|exact IH]); apply K end.
    + unfold total at 1. rewrite sumF_map. cbn [hE]. rewrite corrected_total.
      * rewrite Qplus_comm. unfold total. symmetry. apply sumF_filter.
      * now apply mergeable_shares.
      * intros h Hh. apply others_in in Hh. destruct M as (Hf & _). now apply Hf.
    + intros -> M'. unfold total at 1. rewrite sumF_map. cbn [hEc]. rewrite corrected_total.
      * rewrite Qplus_comm. unfold total. symmetry. apply sumF_filter.
      * now apply mergeable_shares.
      * intros h Hh. apply others_in in Hh. destruct M' as (Hf & _). now apply Hf.
  - assert (Hn : forall h, In h hits -> ~ NNhit h).
    { intros h Hh C. apply is_nn_iff in C. enough (existsb is_nn hits = true) by congruence. apply existsb_exists. eauto. }
    split; [assumption|]. split; [|split; reflexivity].
    clear -Hn. unfold others. induction hits as [|a l IH]; [constructor|]. cbn [filter].
    rewrite (proj2 (is_nn_not a)) by (apply Hn; now left). constructor; [repeat split|]. apply IH. intros; apply Hn; now right.
Qed.

(** what each hit gets: hits that are not the closest to any NN hit keep their energy, and
    hits with the same NN hits around them share in proportion to their energy *)
Theorem C18_merge_shares same_peak has_ec hits i h h' :
  mergeable same_peak hE hits ->
  let rest := filter (fun h => negb (Qeqb (hQ h) NN)) hits in
  let out := merge_NN_hits has_ec same_peak hits in
  nth_error rest i = Some h -> nth_error out i = Some h' ->
  ((forall nn, In nn hits -> NNhit nn -> ~ receives same_peak rest nn h) -> val (hE h') == val (hE h)) /\
  (forall j g g', nth_error rest j = Some g -> nth_error out j = Some g' ->
     (forall nn, In nn hits -> NNhit nn -> (receives same_peak rest nn h <-> receives same_peak rest nn g)) ->
     val (hE h') * val (hE g) == val (hE g') * val (hE h)).
Proof.
  intros M. cbv zeta. unfold merge_NN_hits. change (filter (fun h => negb (Qeqb (hQ h) NN)) hits) with (others hits).
  fold (others hits). intros Eh Eh'.
  assert (Helig : forall nn, In nn hits -> NNhit nn -> exists c, In c (others hits) /\ eligible same_peak nn c).
  { intros nn Hn En. destruct M as (_ & _ & Hc). destruct (Hc nn Hn En) as (c & ? & ? & ?). exists c. rewrite others_in. auto. }
  destruct (existsb is_nn hits) eqn:Ex.
  - rewrite nth_error_map, Eh in Eh'. cbn in Eh'. injection Eh' as <-. cbn [hE].
    assert (Ih : In h (others hits)) by (eapply nth_error_In; exact Eh).
    pose proof (mergeable_shares _ _ _ M) as Ms. destruct M as (Hf & Hp & _).
    assert (Hfin : forall x, In x (others hits) -> finite (hE x)) by (intros x Hx; apply others_in in Hx; now apply Hf).
    split.
    + intros Hno. destruct (corrected_untouched same_peak (others hits) (filter is_nn hits) hE h) as (v & Ev & Hv).
      * intros n Hn. apply filter_In in Hn. destruct Hn as [Hn En]. apply is_nn_iff in En.
        destruct (closest same_peak (others hits) n h) eqn:C; [|reflexivity]. exfalso. apply (Hno n Hn En). apply closest_iff; auto.
      * now apply Hfin.
      * rewrite Ev. exact Hv.
    + intros j g g' Eg Eg' Hiff. rewrite nth_error_map, Eg in Eg'. cbn in Eg'. injection Eg' as <-. cbn [hE].
      assert (Ig : In g (others hits)) by (eapply nth_error_In; exact Eg).
      destruct (corrected_spec same_peak (others hits) (filter is_nn hits) hE h Ms (Hfin h Ih)) as (v & Ev & Hv).
      destruct (corrected_spec same_peak (others hits) (filter is_nn hits) hE g Ms (Hfin g Ig)) as (w & Ew & Hw).
      rewrite Ev, Ew. cbn [val]. rewrite Hv, Hw.
      set (a := val (hE h)). set (b := val (hE g)). 
      assert (E : sumF (fun n => val (correction same_peak (others hits) hE n h)) (filter is_nn hits) * b ==
                  sumF (fun n => val (correction same_peak (others hits) hE n g)) (filter is_nn hits) * a).
      { rewrite <- !sumF_scale_r. apply sumF_ext. intros n Hn. destruct (Ms n Hn) as [[_ Hs] [q Eq]].
        apply filter_In in Hn. destruct Hn as [Hn En]. apply is_nn_iff in En.
        assert (Ec : closest same_peak (others hits) n h = closest same_peak (others hits) n g).
        { pose proof (closest_iff same_peak _ n h (Helig n Hn En)). pose proof (closest_iff same_peak _ n g (Helig n Hn En)).
          specialize (Hiff n Hn En). destruct (closest _ _ n h), (closest _ _ n g); try reflexivity; exfalso; intuition congruence. }
        unfold correction. rewrite <- Ec. destruct (closest same_peak (others hits) n h); [|cbn [val]; ring].
        destruct (Hfin h Ih) as [x Hx]. destruct (Hfin g Ig) as [y Hy]. unfold a, b. rewrite Hx, Hy, Eq. cbn [nmul ndiv val]. rewrite nansum_total.
        destruct (Qeqb_spec (total hE (filter (closest same_peak (others hits) n) (others hits))) 0); [contradiction|]. cbn [val]. field. assumption. }
      lra.
  - assert (Eo : others hits = hits).
    { unfold others. clear -Ex. induction hits as [|x l IH]; [reflexivity|]. cbn [existsb] in Ex. apply orb_false_iff in Ex. destruct Ex as [E1 E2].
      cbn [filter]. rewrite E1. cbn [negb]. now rewrite IH. }
    rewrite Eo in *. rewrite Eh in Eh'. injection Eh' as <-. split; [reflexivity|].
    intros j g g' Eg Eg' _. rewrite Eg in Eg'. injection Eg' as <-. ring.
Qed.

Definition mk (p : nat) (z q e : Q) : hit := {| hmeta := 0; npeak := p; hX := 1; hY := 2; hZ := z; hQ := q; hE := Some e; hEc := Some (2 * e) |}.
Definition ex_hits : list hit := [mk 0 1 5 10; mk 0 1 7 30; mk 0 2 NN 8; mk 0 4 9 50; mk 1 2 3 1].
Example C18_ex_ok : mergeable true hE ex_hits /\ mergeable true hEc ex_hits.
Proof.
  split; (split; [|split]).
  1,4: intros h [<-|[<-|[<-|[<-|[<-|[]]]]]]; eexists; reflexivity.
  1,3: intros h [<-|[<-|[<-|[<-|[<-|[]]]]]] N; try (exfalso; apply N; reflexivity); eexists; (split; [reflexivity|reflexivity]).
  1,2: intros h [<-|[<-|[<-|[<-|[<-|[]]]]]] N; try (exfalso; revert N; vm_compute; discriminate);
    exists (mk 0 1 5 10); (split; [now left|]); split; [vm_compute; discriminate|now intros _].
Qed.
Example C18_ex : map (fun h => match hE h with Some e => Qred e | None => 0 end) (merge_NN_hits true true ex_hits) = [12; 36; 50; 1].
Proof. vm_compute. reflexivity. Qed.

(** the energy of an NN hit with no other hit in its peak is lost *)
Theorem C18_no_receiver_refuted : exists hits,
  (forall h, In h hits -> positive (hE h)) /\ (exists h, In h hits /\ ~ NNhit h) /\
  ~ total hE (merge_NN_hits true true hits) == total hE hits.
Proof.
  exists [mk 0 1 5 10; mk 1 2 NN 8]. split; [|split].
  - intros h [<-|[<-|[]]]; eexists; split; reflexivity.
  - exists (mk 0 1 5 10). split; [now left|]. vm_compute. discriminate.
  - vm_compute. discriminate.
Qed.

(** receivers whose energies add up to zero spoil the energies *)
Theorem C18_zero_receiver_refuted : exists hits h,
  (forall h, In h hits -> finite (hE h)) /\ In h (merge_NN_hits true true hits) /\ hE h = None.
Proof.
  exists [mk 0 1 5 0; mk 0 2 NN 8]. eexists. split; [|split].
  - intros h [<-|[<-|[]]]; eexists; reflexivity.
  - vm_compute. left. reflexivity.
  - reflexivity.
Qed.

(** ** C19 *)
Theorem C19_threshold_by_slices th hits : 0 < th ->
  StronglySorted (fun h h' => hZ h <= hZ h') (threshold_hits th hits) /\
  forall z, thresholded th (slice_at z hits) (slice_at z (threshold_hits th hits)).
Proof.
  intros Ht. split; [now apply threshold_sorted|]. intros z. rewrite threshold_slices by assumption. now apply apply_threshold_spec.
Qed.

Theorem C19_no_threshold th hits : th <= 0 -> threshold_hits th hits = hits.
Proof. intros H. unfold threshold_hits. destruct (Qleb_spec th 0); [reflexivity|exfalso; lra]. Qed.

Example C19_ex : map (fun h => (Qred (hZ h), Qred (hQ h))) (threshold_hits 6 ex_hits) = [(1, 7); (2, NN); (4, 9)].
Proof. vm_compute. reflexivity. Qed.

(** threshold followed by merging, as in hits_thresholder: what remains are hits above
    threshold and their energy is the energy after the threshold *)
Theorem C19_threshold_and_merge th same_peak hits : 0 < th ->
  (forall h, In h hits -> 0 <= val (hE h)) ->
  (forall h, In h hits -> exists c, In c hits /\ th <= hQ c /\ eligible same_peak h c) ->
  let out := threshold_hits_and_merge_nn th same_peak hits in
  (forall h, In h out -> th <= hQ h) /\ total hE out == total hE (threshold_hits th hits).
Proof.
  intros Ht He Hc. cbv zeta. set (mid := threshold_hits th hits).
  assert (Hmid : forall h, In h mid ->
    (th <= hQ h /\ positive (hE h)) \/ (hQ h = NN /\ finite (hE h) /\ exists g, In g hits /\ npeak h = npeak g)).
  { intros h Hh. assert (Hs : In h (slice_at (hZ h) mid)) by (apply slice_in; split; [assumption|reflexivity]).
    unfold mid in Hs. rewrite threshold_slices in Hs by assumption. set (s := slice_at (hZ h) hits) in *.
    assert (Hin : forall g, In g s -> In g hits) by (intros g Hg; now apply slice_in in Hg).
    assert (HE : 0 <= total hE s) by (apply sumF_nonneg; intros g Hg; auto).
    destruct (apply_threshold_spec th s Ht) as [(Hne & F & _)|[(_ & f & r & nn & Es & Eo & _ & Hp & _ & _ & _ & HQ & HE1 & _)|[_ Eo]]].
    - left. set (sel := filter _ s) in *.
      assert (Hsel : forall g, In g sel -> th <= hQ g) by (intros g Hg; apply filter_In in Hg; now apply Qleb_le).
      assert (Hqs : 0 < sumF hQ sel) by now apply (sumF_ge sel th).
      set (qs := sumF hQ sel) in *. set (o := apply_threshold th s) in *. clearbody qs o sel. clear Hne.
      revert Hs. induction F as [|g g' sel o (R & (e & Ee & He') & _) F IH]; intros Hs; [easy|].
      destruct Hs as [<-|Hs].
      + destruct R as (_ & _ & _ & _ & _ & Rq). rewrite Rq. specialize (Hsel g (or_introl eq_refl)). split; [assumption|].
        exists e. split; [assumption|]. pose proof eps_pos.
        assert (0 < e * (qs + EPSILON)) by (rewrite He'; nra). apply Qnot_le_lt. intros C. nra.
      + apply IH; [|assumption]. intros; apply Hsel; now right.
    - right. rewrite Eo in Hs. destruct Hs as [<-|[]]. split; [assumption|]. destruct HE1 as (e & E1 & _). split; [eexists; exact E1|].
      exists f. split; [apply Hin; rewrite Es; now left|assumption].
    - rewrite Eo in Hs. easy. }
  assert (HNN : forall q, th <= q -> ~ q == NN) by (intros q Hq C; rewrite C in Hq; unfold NN in Hq; lra).
  assert (M : mergeable same_peak hE mid).
  { split; [|split].
    - intros h Hh. destruct (Hmid h Hh) as [(_ & q & Eq & _)|(_ & Hf & _)]; [eexists; exact Eq|assumption].
    - intros h Hh N. destruct (Hmid h Hh) as [[_ Hp]|(E & _)]; [assumption|]. exfalso. apply N. unfold NNhit. rewrite E. reflexivity.
    - intros nn Hn En. destruct (Hmid nn Hn) as [[Hq _]|(_ & _ & g & Hg & Ep)]; [exfalso; apply (HNN _ Hq En)|].
      destruct (Hc g Hg) as (c & Ic & Hq & El).
      assert (X : In c (slice_at (hZ c) hits)) by (apply slice_in; split; [assumption|reflexivity]).
      assert (exists c', In c' mid /\ same_row c c') as (c' & Ic' & Sc).
      { destruct (apply_threshold_spec th (slice_at (hZ c) hits) Ht) as [(_ & F & _)|[(C & _)|[C _]]].
        - assert (Ics : In c (filter (fun h => Qle_bool th (hQ h)) (slice_at (hZ c) hits))) by (apply filter_In; split; [assumption|now apply Qleb_le]).
          assert (exists c', In c' (apply_threshold th (slice_at (hZ c) hits)) /\ same_row c c') as (c' & I' & S').
          { clear -F Ics. revert F. generalize (sumF hQ (filter (fun h => Qle_bool th (hQ h)) (slice_at (hZ c) hits))).
            generalize (apply_threshold th (slice_at (hZ c) hits)). revert Ics. generalize (filter (fun h => Qle_bool th (hQ h)) (slice_at (hZ c) hits)).
            intros l Hl o qs F. induction F as [|a b l o (R & _) F IH]; [easy|]. destruct Hl as [->|Hl]; [exists b; split; [now left|assumption]|].
            destruct (IH Hl) as (c' & ? & ?). exists c'. split; [now right|assumption]. }
          exists c'. split; [|assumption]. rewrite <- threshold_slices in I' by assumption. now apply slice_in in I'.
        - assert (In c (filter (fun h => Qle_bool th (hQ h)) (slice_at (hZ c) hits))) as K by (apply filter_In; split; [assumption|now apply Qleb_le]).
          now rewrite C in K.
        - now rewrite C in X. }
      exists c'. split; [assumption|]. destruct Sc as (_ & Sp & _ & _ & _ & Sq). split.
      + unfold NNhit. rewrite Sq. now apply HNN.
      + unfold eligible in *. intros T. rewrite Sp, Ep. now apply El. }
  destruct (C18_merge_conserves_energy same_peak true mid M) as (N & F & T & _). split; [|exact T].
  unfold threshold_hits_and_merge_nn. fold mid. intros h Hh.
  assert (exists g, In g mid /\ ~ NNhit g /\ hQ h = hQ g) as (g & Hg & Ng & Eq).
  { clear -F Hh. set (o := merge_NN_hits true same_peak mid) in *. clearbody o.
    assert (K : forall l o, Forall2 same_row l o -> In h o -> exists g, In g l /\ hQ h = hQ g).
    { clear. intros l o F. induction F as [|a b l o R F IH]; intros Hh; [easy|]. destruct Hh as [<-|Hh]; [exists a; split; [now left|apply R]|].
      destruct (IH Hh) as (g & ? & ?). exists g. split; [now right|assumption]. }
    destruct (K _ _ F Hh) as (g & Ig & Eg). exists g. apply filter_In in Ig. destruct Ig as [Ig Ng]. split; [assumption|]. split; [|assumption].
    apply is_nn_not in Ng. exact Ng. }
  rewrite Eq. destruct (Hmid g Hg) as [[Hq _]|(E & _)]; [assumption|]. exfalso. apply Ng. unfold NNhit. rewrite E. reflexivity.
Qed.

Example C19_merge_ex : map (fun h => (Qred (hZ h), Qred (hQ h))) (threshold_hits_and_merge_nn 6 false ex_hits) = [(1, 7); (4, 9)].
Proof. vm_compute. reflexivity. Qed.

Print Assumptions C17_slice_energy_shared.
Print Assumptions C18_merge_conserves_energy.
Print Assumptions C18_merge_shares.
Print Assumptions C18_no_receiver_refuted.
Print Assumptions C18_zero_receiver_refuted.
Print Assumptions C19_threshold_by_slices.
Print Assumptions C19_no_threshold.
Print Assumptions C19_threshold_and_merge.
