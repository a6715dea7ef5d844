(** The row of one track *)
From Verif Require Import Base PeaksModel Arrays CorrModel PaolinaModel PaolinaSpec PaolinaVoxels PaolinaTracks PaolinaDrop PaolinaProps BuffersEvent BuffersProps DbModel DbProps TopoModel TopoSpec.
Local Open Scope Q_scope.

Lemma min_col_spec f l : l <> [] -> (forall h, In h l -> min_col f l <= f h) /\ exists h, In h l /\ min_col f l == f h.
Proof.
  destruct l as [|h l]; [easy|]. intros _. cbn [min_col].
  assert (E : fold_left (fun m g => Qmin m (f g)) l (f h) = fold_left Qmin (map f l) (f h)) by (generalize (f h); induction l as [|g l IH]; intros q; cbn; [reflexivity|apply IH]).
  rewrite E. split.
  - destruct (BuffersEvent.fold_min (map f l) (f h)) as [A B]. intros g [<-|Hg]; [assumption|apply B; now apply in_map].
  - pose proof (PaolinaDrop.fold_min_in (map f l) (f h)) as H. change (f h :: map f l) with (map f (h :: l)) in H. apply in_map_iff in H. destruct H as (g & Eg & Hg). exists g. now rewrite Eg.
Qed.
Lemma Qmax_either a b : Qmax a b = a \/ Qmax a b = b.
Proof. unfold Qmax, GenericMinMax.gmax. destruct (a ?= b)%Q; auto. Qed.
Lemma fold_max_in l a : In (fold_left Qmax l a) (a :: l).
Proof.
  revert a; induction l as [|b l IH]; intros a; cbn [fold_left]; [now left|]. destruct (IH (Qmax a b)) as [E|E]; [|right; now right].
  rewrite <- E. destruct (Qmax_either a b) as [-> | ->]; [now left|right; now left].
Qed.
Lemma max_col_spec f l : l <> [] -> (forall h, In h l -> f h <= max_col f l) /\ exists h, In h l /\ max_col f l == f h.
Proof.
  destruct l as [|h l]; [easy|]. intros _. cbn [max_col].
  assert (E : fold_left (fun m g => Qmax m (f g)) l (f h) = fold_left Qmax (map f l) (f h)) by (generalize (f h); induction l as [|g l IH]; intros q; cbn; [reflexivity|apply IH]).
  rewrite E. split.
  - destruct (BuffersEvent.fold_max (map f l) (f h)) as [A B]. intros g [<-|Hg]; [assumption|apply B; now apply in_map].
  - pose proof (fold_max_in (map f l) (f h)) as H. change (f h :: map f l) with (map f (h :: l)) in H. apply in_map_iff in H. destruct H as (g & Eg & Hg). exists g. now rewrite Eg.
Qed.

Lemma track_energy_hits t : track_energy t == sumF pe (track_hits t).
Proof. unfold track_energy, track_hits. now rewrite sumF_flat_map. Qed.

Lemma sumN_hits t : sumN (map (fun v => length (vhits v)) t) = length (track_hits t).
Proof. induction t as [|v t IH]; cbn; [reflexivity|]. rewrite app_length. cbn in IH. unfold sumN in *. cbn. now rewrite IH. Qed.

(** the sum over part of the hits *)
Lemma sumF_sub_flat (p : voxel -> bool) (q : phit -> bool) t : (forall h, In h (track_hits t) -> 0 <= pe h) ->
  sumF pe (flat_map (fun v => filter q (vhits v)) (filter p t)) <= sumF pe (track_hits t) /\ 0 <= sumF pe (flat_map (fun v => filter q (vhits v)) (filter p t)).
Proof.
  induction t as [|v t IH]; intros H; [cbn; lra|]. unfold track_hits in *. cbn [flat_map filter] in *.
  assert (H1 : forall h, In h (vhits v) -> 0 <= pe h) by (intros; apply H; apply in_app_iff; now left).
  assert (H2 : forall h, In h (flat_map vhits t) -> 0 <= pe h) by (intros; apply H; apply in_app_iff; now right).
  specialize (IH H2). rewrite sumF_app.
  assert (A : 0 <= sumF pe (filter q (vhits v)) <= sumF pe (vhits v)).
  { split; [apply sumF_nonneg; intros h Hh; apply filter_In in Hh; now apply H1|]. clear - H1. induction (vhits v) as [|h l IHl]; [cbn; lra|]. cbn [filter].
    assert (0 <= pe h) by (apply H1; now left). assert (IH' := IHl (fun g Hg => H1 g (or_intror Hg))). destruct (q h); rewrite ?sumF_cons; lra. }
  destruct (p v); cbn [flat_map]; rewrite ?sumF_app; lra.
Qed.
Lemma sumF_sub_voxels (p : voxel -> bool) t : (forall v, In v t -> 0 <= vE v) -> 0 <= sumF vE (filter p t) <= sumF vE t.
Proof.
  induction t as [|v t IH]; intros H; [cbn; lra|]. assert (0 <= vE v) by (apply H; now left). assert (IH' := IH (fun g Hg => H g (or_intror Hg))). cbn [filter]. destruct (p v); rewrite ?sumF_cons; lra.
Qed.

Section Overlap.
  Variable hits : list thit.
  Notation same := (same_columns hits).

  Lemma same_refl h : same h h = true.
  Proof.
    unfold same_columns. rewrite Nat.eqb_refl. assert (E : forall q, Qeqb q q = true) by (intros; now apply Qeqb_eq). rewrite !E. cbn [andb].
    unfold val_eqb. destruct (tEc _); [rewrite E|]; reflexivity.
  Qed.
  Lemma same_pe h g : same h g = true -> pe h == pe g.
  Proof. unfold same_columns. rewrite !andb_true_iff, !Qeqb_eq. tauto. Qed.
  Lemma same_pos h g : same h g = true -> px h == px g /\ py h == py g /\ pz h == pz g.
  Proof. unfold same_columns. rewrite !andb_true_iff, !Qeqb_eq. tauto. Qed.

  (** the energy of the hits that are in both blobs *)
  Lemma overlap_common (l m k : list phit) : NoDup l -> NoDup m -> NoDup k -> (forall h, In h k <-> In h l /\ In h m) ->
    (forall h g, In h l -> In g m -> same h g = true -> h = g) -> overlap hits l m == sumF pe k.
  Proof.
    intros Nl Nm Nk Hk Hs. unfold overlap.
    assert (P : Permutation (flat_map (fun h => filter (same h) m) l) k).
    { apply NoDup_Permutation; [|assumption|].
      - clear Hk Nk k. induction l as [|h l IH]; cbn [flat_map]; [constructor|]. inversion Nl as [|? ? N1 N2]; subst. apply NoDup_app_disjoint; [now apply NoDup_filter|apply IH; [assumption|intros; apply Hs; [now right|assumption..]]|].
        intros g Hg Hl. apply filter_In in Hg. destruct Hg as [Hg Eg]. apply Hs in Eg; [|now left|assumption]. subst g. apply in_flat_map in Hl. destruct Hl as (h' & Hh' & Hf). apply filter_In in Hf. destruct Hf as [_ Ef].
        apply Hs in Ef; [subst; contradiction|now right|assumption].
      - intros h. rewrite Hk, in_flat_map. split.
        + intros (g & Hg & Hf). apply filter_In in Hf. destruct Hf as [Hf Ef]. rewrite (Hs g h Hg Hf Ef) in Hg. auto.
        + intros [H1 H2]. exists h. split; [assumption|]. apply filter_In. split; [assumption|apply same_refl]. }
    now apply sumF_perm.
  Qed.

  Lemma overlap_bounds l m : NoDup l -> NoDup m -> (forall h, In h l \/ In h m -> 0 < pe h) -> (forall h g, In h l -> In g m -> same h g = true -> h = g) ->
    0 <= overlap hits l m /\ overlap hits l m <= sumF pe l /\ overlap hits l m <= sumF pe m.
  Proof.
    intros Nl Nm Hp Hs. unfold overlap.
    assert (A : forall g, In g (flat_map (fun h => filter (same h) m) l) -> In g m /\ In g l).
    { intros g Hg. apply in_flat_map in Hg. destruct Hg as (h & Hh & Hf). apply filter_In in Hf. destruct Hf as [Hf Ef]. rewrite (Hs h g Hh Hf Ef) in Hh. auto. }
    assert (N : NoDup (flat_map (fun h => filter (same h) m) l)).
    { clear A Hp. induction l as [|h l IH]; cbn [flat_map]; [constructor|]. inversion Nl as [|? ? N1 N2]; subst. apply NoDup_app_disjoint; [now apply NoDup_filter|apply IH; [assumption|intros; apply Hs; [now right|assumption..]]|].
      intros g Hg Hl. apply filter_In in Hg. destruct Hg as [Hg Eg]. apply Hs in Eg; [|now left|assumption]. subst g. apply in_flat_map in Hl. destruct Hl as (h' & Hh' & Hf). apply filter_In in Hf. destruct Hf as [_ Ef].
      apply Hs in Ef; [subst; contradiction|now right|assumption]. }
    set (k := flat_map _ l) in *. clearbody k.
    assert (L : forall big, NoDup k -> (forall g, In g k -> In g big) -> (forall h, In h big -> 0 < pe h) -> sumF pe k <= sumF pe big).
    { clear. intros big N. revert big. induction k as [|g k IH]; intros big H P; [apply sumF_nonneg; intros; apply Qlt_le_weak; auto|]. inversion N as [|? ? N1 N2]; subst.
      destruct (in_split g big (H g (or_introl eq_refl))) as (b1 & b2 & ->). rewrite sumF_cons.
      assert (E : sumF pe (b1 ++ g :: b2) == pe g + sumF pe (b1 ++ b2)) by (rewrite !sumF_app, sumF_cons; lra). rewrite E.
      assert (IH' : sumF pe k <= sumF pe (b1 ++ b2)).
      { apply IH; [assumption| |].
        - intros x Hx. assert (Hx' := H x (or_intror Hx)). rewrite in_app_iff in *. destruct Hx' as [?|[->|?]]; auto. contradiction.
        - intros x Hx. apply P. rewrite in_app_iff in *. cbn. tauto. }
      lra. }
    split; [apply sumF_nonneg; intros g Hg; apply Qlt_le_weak, Hp; left; now apply A|]. split; apply L; auto; intros g Hg; apply A in Hg; tauto.
  Qed.
End Overlap.

Section Track.
  Variable paths : list voxel -> list voxel * (voxel -> voxel -> Q).
  Variable norm : pos3 -> Q.
  Variables (blob_radius : Q) (scan_radius : option Q) (event : Z) (hits : list thit).
  Hypotheses (Hpaths : paths_ok paths) (Hmetric : paths_metric paths) (Hnorm : forall s, 0 <= norm s) (Hblob : 0 < blob_radius) (Hscan : forall r, scan_radius = Some r -> 0 <= r).

  Lemma extremes t : t <> [] -> NoDup (map vid t) ->
    exists a b L, find_extrema_and_length (fst (paths t)) (snd (paths t)) = Ok (Some (a, b), L) /\ In a t /\ In b t /\ L == snd (paths t) a b /\
      forall u v, In u t -> In v t -> snd (paths t) u v <= L.
  Proof using Hpaths Hmetric.
    intros Hne N. destruct (Hpaths t N) as [P D]. assert (Nt : NoDup t) by (now apply NoDup_map_inv in N).
    assert (Nk : NoDup (fst (paths t))) by (eapply Permutation_NoDup; [symmetry; eassumption|assumption]).
    assert (I : forall v, In v (fst (paths t)) <-> In v t) by (intros v; split; apply Permutation_in; [assumption|now symmetry]).
    destruct (fst (paths t)) as [|k1 [|k2 ks]] eqn:Ek.
    - apply Permutation_nil in P. congruence.
    - exists k1, k1, 0. assert (H1 : In k1 t) by (apply I; now left). split; [reflexivity|]. split; [assumption|]. split; [assumption|]. destruct (Hmetric t k1 k1 H1 H1) as [_ Z]. split; [now rewrite Z|].
      intros u v Hu Hv. apply I in Hu, Hv. destruct Hu as [<-|[]], Hv as [<-|[]]. rewrite Z. lra.
    - rewrite <- Ek in *. destruct (C22_extremes_are_farthest (fst (paths t)) (snd (paths t))) as (a & b & E & Ha & Hb & _ & M).
      + rewrite Ek. cbn. lia.
      + assumption.
      + intros u v Hu Hv. apply I in Hu, Hv. now apply Hmetric.
      + intros u Hu. apply I in Hu. now apply (Hmetric t u u).
      + intros u v Hu Hv. apply I in Hu, Hv. now apply D.
      + exists a, b, (snd (paths t) a b). rewrite E. split; [reflexivity|]. split; [now apply I|]. split; [now apply I|]. split; [reflexivity|]. intros u v Hu Hv. apply M; now apply I.
  Qed.

  Lemma by_id_self t v : NoDup (map vid t) -> In v t -> by_id t (snd (paths t)) (vid v) (vid v) == 0.
  Proof using Hmetric.
    intros N H. unfold by_id. destruct (find (fun u => (vid u =? vid v)%nat) t) as [u|] eqn:E; [|reflexivity]. apply find_some in E. destruct E as [Hu _]. apply (Hmetric t u u Hu Hu).
  Qed.

  Lemma track_info_ok size n c t : t <> [] -> NoDup (map vid t) -> (forall v, In v t -> filled v) ->
    exists k, track_info paths norm blob_radius scan_radius event hits size n c t = Ok k /\
      k_event k = event /\ k_id k = c /\ k_energy k = track_energy t /\ k_nvox k = length t /\ k_nhits k = length (track_hits t) /\ k_ntracks k = n /\ k_size k = size /\
      k_min k = cols3 (fun f => min_col f (track_hits t)) /\ k_max k = cols3 (fun f => max_col f (track_hits t)) /\ k_ave k = cols3 (fun f => wmean f (track_hits t)) /\
      (exists a b, In a t /\ In b t /\ k_ext1 k = vpos a /\ k_ext2 k = vpos b /\ k_length k == snd (paths t) a b /\ forall u v, In u t -> In v t -> snd (paths t) u v <= k_length k) /\
      0 <= k_eblob2 k /\ k_eblob2 k <= k_eblob1 k /\ k_eblob1 k <= k_energy k /\
      (NoDup (track_hits t) -> (forall h g, In h (track_hits t) -> In g (track_hits t) -> same_columns hits h g = true -> h = g) -> 0 <= k_overlap k <= k_eblob2 k).
  Proof using Hpaths Hmetric Hnorm Hblob Hscan.
    intros Hne N F. unfold track_info.
    assert (Pos : forall h, In h (track_hits t) -> 0 < pe h) by (intros h Hh; apply in_flat_map in Hh; destruct Hh as (v & Hv & Hh); now apply (F v Hv)).
    assert (Hh0 : exists h, In h (track_hits t)).
    { destruct t as [|v t']; [easy|]. destruct (F v (or_introl eq_refl)) as (Hv & _). destruct (vhits v) as [|h l] eqn:E; [easy|]. exists h. unfold track_hits. cbn [flat_map]. rewrite E. now left. }
    destruct Hh0 as (h0 & Hh0). assert (T : 0 < sumF pe (track_hits t)) by now apply sumF_pos with h0.
    destruct (Qeqb_spec (sumF pe (track_hits t)) 0) as [C|_]; [lra|].
    destruct (extremes t Hne N) as (a & b & L & E & Ha & Hb & EL & M). rewrite E. cbn [rbind fst snd].
    set (d := by_id t (snd (paths t))).
    assert (Hdiag : 0 < blob_radius + norm size) by (specialize (Hnorm size); lra).
    destruct (C24_blobs t d (norm size) blob_radius scan_radius a b) as (b1 & b2 & Eb & H12 & (va & vb & _ & _ & HB) & HE); [now apply NoDup_map_inv in N|assumption|assumption|intros v Hv; now apply by_id_self|assumption|assumption|].
    assert (EN : voxels_energy t == sumF pe (track_hits t)).
    { unfold voxels_energy, track_hits. rewrite sumF_flat_map. apply sumF_ext. intros v Hv. destruct (F v Hv) as (_ & _ & Q). exact Q. }
    assert (Bd : 0 <= bE b2 /\ bE b1 <= sumF pe (track_hits t)).
    { revert Eb. unfold blob_energies_hits_and_centres. destruct (blob_at t d blob_radius scan_radius a) as [xa|]; [|discriminate]. destruct (blob_at t d blob_radius scan_radius b) as [xb|]; [|discriminate]. cbn [rbind].
      destruct (hits_in_blob t d (norm size) blob_radius xa) as [ha|] eqn:Eha; [|discriminate]. destruct (hits_in_blob t d (norm size) blob_radius xb) as [hb|] eqn:Ehb; [|discriminate]. cbn [rbind].
      apply hits_in_blob_spec in Eha, Ehb.
      assert (Pos' : forall h, In h (track_hits t) -> 0 <= pe h) by (intros; now apply Qlt_le_weak, Pos).
      assert (Va : forall x, 0 <= energy_within t d x blob_radius <= voxels_energy t).
      { intros x. unfold energy_within, voxels_energy. apply sumF_sub_voxels. intros v Hv. destruct (F v Hv) as (Hv0 & Pv & Qv). rewrite Qv. apply sumF_nonneg. intros h Hh. now apply Qlt_le_weak, Pv. }
      pose proof (sumF_sub_flat (fun v => Qltb (d (vid xa) (vid v)) (blob_radius + norm size)) (fun h => norm_lt (d3 (hpos h) (blob_centre xa)) blob_radius) t Pos') as [A1 A2].
      pose proof (sumF_sub_flat (fun v => Qltb (d (vid xb) (vid v)) (blob_radius + norm size)) (fun h => norm_lt (d3 (hpos h) (blob_centre xb)) blob_radius) t Pos') as [B1 B2].
      rewrite <- Eha in A1, A2. rewrite <- Ehb in B1, B2. destruct (Va xa), (Va xb).
      intros Eq. destruct (Qltb _ _) in Eq; injection Eq as <- <-; cbn [bE]; destruct ((0 <? length ha)%nat || (0 <? length hb)%nat); lra. }
    eexists. split; [rewrite Eb; cbn [rbind]; reflexivity|]. cbn [k_event k_id k_energy k_nvox k_nhits k_ntracks k_size k_min k_max k_ave k_ext1 k_ext2 k_length k_eblob1 k_eblob2 k_overlap fst snd].
    do 4 (split; [reflexivity|]). split; [apply sumN_hits|]. do 5 (split; [reflexivity|]).
    split; [exists a, b; repeat (split; [assumption || reflexivity|]); assumption|].
    split; [apply Bd|]. split; [assumption|]. split; [rewrite track_energy_hits; apply Bd|].
    intros NH Hs.
    assert (S12 : (forall h, In h (bhits b1) -> In h (track_hits t)) /\ (forall h, In h (bhits b2) -> In h (track_hits t)) /\ NoDup (bhits b1) /\ NoDup (bhits b2)).
    { assert (K : forall v B, blob_of t d (norm size) blob_radius v B -> (forall h, In h (bhits B) -> In h (track_hits t)) /\ NoDup (bhits B)).
      { intros v B (_ & HI & HN). split; [|now apply HN]. intros h Hh. apply HI in Hh. destruct Hh as (u & Hu & Hh & _). apply in_flat_map. eauto. }
      destruct HB as [[K1 K2]|[K1 K2]]; apply K in K1, K2; tauto. }
    destruct S12 as (S1 & S2 & N1 & N2).
    assert (OB := overlap_bounds hits (bhits b1) (bhits b2) N1 N2). destruct OB as (O1 & O2 & O3).
    { intros h [Hh|Hh]; apply Pos; auto. }
    { intros h g Hh Hg. apply Hs; auto. }
    destruct (bhits b1) as [|x1 l1] eqn:X1; [|destruct HE as [_ HE2]; [left; discriminate|]; rewrite HE2; split; assumption].
    cbn in O1, O2 |- *. split; [lra|]. apply Bd.
  Qed.
End Track.
