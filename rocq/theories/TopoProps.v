(** The tracks of an event (C68) *)
From Verif Require Import Base PeaksModel Arrays CorrModel PaolinaModel PaolinaSpec PaolinaVoxels PaolinaTracks PaolinaDrop PaolinaProps BuffersEvent BuffersProps DbModel DbProps KrProps PmapioProofs DeconvClusters TopoModel TopoSpec TopoTrack.
From Coq Require Import Sorted.
Local Open Scope Q_scope.

Lemma nth_error_mapi {A B} (f : nat -> A -> B) l i : nth_error (mapi f l) i = option_map (f i) (nth_error l i).
Proof.
  unfold mapi. assert (G : forall k, nth_error (mapi_from k f l) i = option_map (f (k + i)%nat) (nth_error l i)); [|apply G].
  revert i. induction l as [|a l IH]; intros [|i] k; cbn; try reflexivity; [now rewrite Nat.add_0_r|]. rewrite IH. now replace (S k + i)%nat with (k + S i)%nat by lia.
Qed.
Lemma in_mapi {A B} (f : nat -> A -> B) l b : In b (mapi f l) <-> exists i a, nth_error l i = Some a /\ b = f i a.
Proof.
  split.
  - intros H. apply In_nth_error in H. destruct H as (i & H). rewrite nth_error_mapi in H. destruct (nth_error l i) as [a|] eqn:E; [|discriminate]. injection H as <-. eauto.
  - intros (i & a & E & ->). apply nth_error_In with i. now rewrite nth_error_mapi, E.
Qed.

Section Event.
  Variable round5 : Q -> Q.
  Variable hits : list thit.
  Notation hin := (hits_in_map round5 hits).
  Notation hout := (hits_out_of_map round5 hits).

  Definition rounded (h : thit) : pos3 := (round5 (tX h), round5 (tY h), round5 (tZ h)).

  Lemma in_hin p : In p hin <-> exists i h e, nth_error hits i = Some h /\ tEp h = Some e /\ p = {| px := round5 (tX h); py := round5 (tY h); pz := round5 (tZ h); pe := e; pother := i |}.
  Proof.
    unfold hits_in_map. rewrite in_concat. split.
    - intros (l & Hl & Hp). apply in_mapi in Hl. destruct Hl as (i & h & E & ->). destruct (tEp h) as [e|] eqn:Ee; [|destruct Hp]. destruct Hp as [<-|[]]. eauto 7.
    - intros (i & h & e & E & Ee & ->). eexists. split; [apply in_mapi; exists i, h; split; [assumption|reflexivity]|]. rewrite Ee. now left.
  Qed.
  Lemma in_hout o : In o hout <-> exists i h, nth_error hits i = Some h /\ tEp h = None /\ o = {| o_row := i; o_pos := rounded h; o_ec := tEc h; o_ep := None; o_track := -1 |}.
  Proof.
    unfold hits_out_of_map. rewrite in_concat. split.
    - intros (l & Hl & Hp). apply in_mapi in Hl. destruct Hl as (i & h & E & ->). destruct (tEp h) as [e|] eqn:Ee; [destruct Hp|]. destruct Hp as [<-|[]]. eauto 7.
    - intros (i & h & E & Ee & ->). eexists. split; [apply in_mapi; exists i, h; split; [assumption|reflexivity]|]. rewrite Ee. now left.
  Qed.
  Lemma hin_energy : sumF pe hin == energy_in_map hits.
  Proof.
    unfold hits_in_map, energy_in_map, mapi. generalize 0%nat. induction hits as [|h l IH]; intros k; cbn [mapi_from concat]; [reflexivity|]. rewrite sumF_app, sumF_cons, IH.
    destruct (tEp h); unfold sumF; cbn; lra.
  Qed.
  Lemma all_rows : Permutation (map o_row hout ++ map pother hin) (seq 0 (length hits)).
  Proof.
    unfold hits_in_map, hits_out_of_map, mapi. generalize 0%nat. induction hits as [|h l IH]; intros k; cbn [mapi_from concat seq length]; [reflexivity|]. rewrite !map_app. specialize (IH (S k)).
    destruct (tEp h) as [e|]; cbn [map app].
    - rewrite <- Permutation_middle. now constructor.
    - now constructor.
  Qed.
  Lemma row_at i h : nth_error hits i = Some h -> row hits i = h.
  Proof. intros E. unfold row. now apply nth_error_nth. Qed.
End Event.

(** the hits of voxels that keep their place *)
Definition hkey (h : phit) : nat * pos3 := (pother h, hpos h).
Lemma same_place_keys v v' : same_place v v' -> map hkey (vhits v') = map hkey (vhits v).
Proof.
  intros (_ & _ & _ & _ & _ & _ & _ & F). induction F as [|h h' l l' (H1 & H2 & H3 & H4) _ IH]; cbn; [reflexivity|]. rewrite IH. f_equal. unfold hkey, hpos. congruence.
Qed.
Lemma keys_moved vs l : NoDup (map vid vs) -> Permutation (map vid l) (map vid vs) -> (forall v', In v' l -> exists v, In v vs /\ same_place v v') ->
  Permutation (map hkey (track_hits l)) (map hkey (track_hits vs)).
Proof.
  intros N P H. set (G := fun i => match find (fun v => (vid v =? i)%nat) vs with Some v => map hkey (vhits v) | None => [] end).
  assert (Find : forall v, In v vs -> find (fun u => (vid u =? vid v)%nat) vs = Some v).
  { intros v Hv. destruct (find (fun u => (vid u =? vid v)%nat) vs) as [u|] eqn:E.
    - apply find_some in E. destruct E as [Hu Eu]. apply Nat.eqb_eq in Eu. f_equal. now apply (voxel_eq_dec u v vs).
    - apply find_none with (x := v) in E; [|assumption]. now rewrite Nat.eqb_refl in E. }
  assert (M : forall m, (forall v', In v' m -> exists v, In v vs /\ same_place v v') -> map hkey (track_hits m) = flat_map G (map vid m)).
  { induction m as [|v' m IH]; intros Hm; [reflexivity|]. unfold track_hits in *. cbn [flat_map map]. rewrite map_app, IH by (intros; apply Hm; now right). f_equal.
    destruct (Hm v' (or_introl eq_refl)) as (v & Hv & SP). unfold G. destruct SP as (E & SP'). rewrite E, Find by assumption. apply same_place_keys. now split. }
  rewrite (M l H), (M vs).
  - now apply Permutation_flat_map.
  - intros v Hv. exists v. split; [assumption|]. unfold same_place. repeat (split; [reflexivity|]). clear. induction (vhits v); constructor; [unfold same_hit_position; auto|assumption].
Qed.

Lemma sumF_as_row hits c t : sumF ep (map (as_row hits c (fun h => Some (pe h))) t) == sumF pe t.
Proof. rewrite sumF_map. apply sumF_ext. intros h _. reflexivity. Qed.
Lemma sumF_as_row_pos hits c (f : ohit -> Q) (g : phit -> Q) t : (forall h, f (as_row hits c (fun h => Some (pe h)) h) = g h) ->
  sumF (fun o => ep o * f o) (map (as_row hits c (fun h => Some (pe h))) t) == sumF (fun h => pe h * g h) t.
Proof. intros E. rewrite sumF_map. apply sumF_ext. intros h _. rewrite E. reflexivity. Qed.

Section Tracks.
  Variable hits : list thit.
  Definition labelled (tracks : list (list voxel)) : list ohit :=
    concat (mapi (fun c t => map (as_row hits (Z.of_nat c) (fun h => Some (pe h))) (track_hits t)) tracks).
  Lemma in_labelled tracks o : In o (labelled tracks) <-> exists c t v h, nth_error tracks c = Some t /\ In v t /\ In h (vhits v) /\ o = as_row hits (Z.of_nat c) (fun h => Some (pe h)) h.
  Proof.
    unfold labelled. rewrite in_concat. split.
    - intros (l & Hl & Ho). apply in_mapi in Hl. destruct Hl as (c & t & E & ->). apply in_map_iff in Ho. destruct Ho as (h & <- & Hh). apply in_flat_map in Hh. destruct Hh as (v & Hv & Hh). eauto 8.
    - intros (c & t & v & h & E & Hv & Hh & ->). eexists. split; [apply in_mapi; exists c, t; split; [eassumption|reflexivity]|]. apply in_map_iff. exists h. split; [reflexivity|]. apply in_flat_map. eauto.
  Qed.
  Lemma labelled_rows tracks : map o_row (labelled tracks) = map pother (track_hits (concat tracks)).
  Proof.
    unfold labelled, mapi, track_hits. generalize 0%nat. induction tracks as [|t l IH]; intros k; cbn [mapi_from concat]; [reflexivity|]. rewrite flat_map_app, !map_app, IH. f_equal. rewrite map_map. reflexivity.
  Qed.
  Lemma filter_label c c' l : filter (fun o => (o_track o =? Z.of_nat c)%Z) (map (as_row hits (Z.of_nat c') (fun h => Some (pe h))) l) =
    if (c' =? c)%nat then map (as_row hits (Z.of_nat c') (fun h => Some (pe h))) l else [].
  Proof.
    induction l as [|h l IH]; cbn [map filter]; [now destruct (c' =? c)%nat|]. rewrite IH. cbn [as_row o_track]. destruct (Nat.eqb_spec c' c) as [->|D]; [now rewrite Z.eqb_refl|].
    destruct (Z.eqb_spec (Z.of_nat c') (Z.of_nat c)); [lia|reflexivity].
  Qed.
  Lemma of_track_labelled tracks c t : nth_error tracks c = Some t -> of_track c (labelled tracks) = map (as_row hits (Z.of_nat c) (fun h => Some (pe h))) (track_hits t).
  Proof.
    unfold of_track, labelled, mapi.
    assert (Z0 : forall l k, (c < k)%nat -> filter (fun o => (o_track o =? Z.of_nat c)%Z) (concat (mapi_from k (fun c t => map (as_row hits (Z.of_nat c) (fun h => Some (pe h))) (track_hits t)) l)) = []).
    { induction l as [|u l IH]; intros k Hk; [reflexivity|]. cbn [mapi_from concat]. rewrite filter_app, filter_label, IH by lia. destruct (Nat.eqb_spec k c); [lia|reflexivity]. }
    assert (G : forall l k, (k <= c)%nat -> nth_error l (c - k) = Some t ->
      filter (fun o => (o_track o =? Z.of_nat c)%Z) (concat (mapi_from k (fun c t => map (as_row hits (Z.of_nat c) (fun h => Some (pe h))) (track_hits t)) l)) = map (as_row hits (Z.of_nat c) (fun h => Some (pe h))) (track_hits t)).
    { induction l as [|u l IH]; intros k Hk E; [now destruct (c - k)%nat|]. cbn [mapi_from concat]. rewrite filter_app, filter_label. destruct (Nat.eqb_spec k c) as [->|D].
      - rewrite Nat.sub_diag in E. cbn in E. injection E as ->. rewrite Z0 by lia. apply app_nil_r.
      - cbn [app]. apply IH; [lia|]. replace (c - k)%nat with (S (c - S k))%nat in E by lia. exact E. }
    intros E. apply (G tracks 0%nat); [lia|]. now rewrite Nat.sub_0_r.
  Qed.
End Tracks.

Lemma box_of hits c l : l <> [] ->
  box (map (as_row hits c (fun h => Some (pe h))) l) (cols3 (fun f => min_col f l)) (cols3 (fun f => max_col f l)).
Proof.
  intros Hne. set (g := as_row hits c (fun h => Some (pe h))).
  assert (A : forall f k, (forall h, f (g h) = k h) -> smallest f (map g l) (min_col k l)).
  { intros f k E. destruct (min_col_spec k l Hne) as [A (h & Hh & Eh)]. split.
    - intros o Ho. apply in_map_iff in Ho. destruct Ho as (x & <- & Hx). rewrite E. now apply A.
    - exists (g h). split; [now apply in_map|]. now rewrite E. }
  assert (B : forall f k, (forall h, f (g h) = k h) -> largest f (map g l) (max_col k l)).
  { intros f k E. destruct (max_col_spec k l Hne) as [B (h & Hh & Eh)]. split.
    - intros o Ho. apply in_map_iff in Ho. destruct Ho as (x & <- & Hx). rewrite E. now apply B.
    - exists (g h). split; [now apply in_map|]. now rewrite E. }
  unfold box, cols3. cbn [fst snd]. repeat split; try (apply A; reflexivity); apply B; reflexivity.
Qed.
Lemma centre_of hits c l : 0 < sumF pe l -> centre ep (map (as_row hits c (fun h => Some (pe h))) l) (cols3 (fun f => wmean f l)).
Proof.
  intros P. unfold centre, weighted, cols3. cbn [fst snd]. rewrite !(sumF_as_row hits c l). repeat split.
  - rewrite (sumF_as_row_pos hits c xof px l) by reflexivity. unfold wmean. field. lra.
  - rewrite (sumF_as_row_pos hits c yof py l) by reflexivity. unfold wmean. field. lra.
  - rewrite (sumF_as_row_pos hits c zof pz l) by reflexivity. unfold wmean. field. lra.
Qed.

Lemma F2_in_r {A B} (P : A -> B -> Prop) l m b : Forall2 P l m -> In b m -> exists a, In a l /\ P a b.
Proof. induction 1; intros H1; [easy|]. destruct H1 as [<-|H1]; [eexists; split; [now left|assumption]|]. destruct (IHForall2 H1) as (a & Ha & Pa). exists a. split; [now right|assumption]. Qed.
Lemma in_combine_seq {A} (l : list A) k c t : In (c, t) (combine (seq k (length l)) l) -> (k <= c)%nat /\ nth_error l (c - k) = Some t.
Proof.
  revert k. induction l as [|a l IH]; intros k H; [destruct H|]. cbn in H. destruct H as [H|H].
  - injection H as <- <-. rewrite Nat.sub_diag. now split.
  - apply IH in H. destruct H as [H1 H2]. split; [lia|]. now replace (c - k)%nat with (S (c - S k))%nat by lia.
Qed.

(** what is said about the tracks of an event *)
Definition event_tracks (round5 : Q -> Q) (event : Z) (hits : list thit) (rows : list track_row) (out : list ohit) (flag : bool) : Prop :=
  (* the flag tells whether a hit is out of the map *)
  (flag = true <-> exists h, In h hits /\ tEp h = None) /\
  (* every hit is written once, at its rounded position; it loses its energy exactly when it belongs to no track *)
  Permutation (map o_row out) (seq 0 (length hits)) /\
  (forall o, In o out -> exists h, nth_error hits (o_row o) = Some h /\ o_pos o = (round5 (tX h), round5 (tY h), round5 (tZ h)) /\ o_ec o = tEc h /\
     (o_track o = (-1)%Z <-> o_ep o = None) /\ (tEp h = None -> o_ep o = None) /\ (forall e, o_ep o = Some e -> 0 < e)) /\
  (* the tracks are numbered from 0 by decreasing energy, and have together all the energy *)
  rows <> [] /\ map k_id rows = seq 0 (length rows) /\ StronglySorted (fun a b => k_energy b <= k_energy a) rows /\
  sumF k_energy rows == energy_in_map hits /\
  (forall o, In o out -> o_track o = (-1)%Z \/ exists k, In k rows /\ o_track o = Z.of_nat (k_id k)) /\
  (* a row describes the hits that carry its number *)
  forall k, In k rows -> k_event k = event /\ k_ntracks k = length rows /\
    let mine := of_track (k_id k) out in
    mine <> [] /\ k_nhits k = length mine /\ k_energy k == sumF ep mine /\ box mine (k_min k) (k_max k) /\ centre ep mine (k_ave k) /\
    0 <= k_eblob2 k /\ k_eblob2 k <= k_eblob1 k /\ k_eblob1 k <= k_energy k /\
    (distinct_hits round5 hits -> 0 <= k_overlap k <= k_eblob2 k).

Theorem C68_tracks_of_an_event round5 paths norm dims strict thr min_voxels blob_radius scan_radius max_num_hits event hits :
  paths_ok paths -> paths_metric paths -> (forall s, 0 <= norm s) -> 0 < blob_radius -> (forall r, scan_radius = Some r -> 0 <= r) -> positive_dims dims ->
  (Z.of_nat (length hits) <= max_num_hits)%Z ->
  (forall h e, In h hits -> tEp h = Some e -> 0 < e) -> (exists h e, In h hits /\ tEp h = Some e) ->
  exists rows out flag,
    create_extract_track_blob_info round5 paths norm dims strict thr min_voxels blob_radius scan_radius max_num_hits event hits = Ok (rows, out, flag) /\
    event_tracks round5 event hits rows out flag /\
    (* the hits of two of the voxels left have the same number exactly when the voxels are connected; those of the dropped voxels have none *)
    exists vs mods dropped,
      voxelize_hits (hits_in_map round5 hits) dims strict = Ok vs /\ drop_end_point_voxels paths thr min_voxels CORNER (S (length vs)) vs = Some (Ok (mods, dropped)) /\
      sumN (map k_nvox rows) = length mods /\
      (forall u v h g o1 o2, In u mods -> In h (vhits u) -> In v mods -> In g (vhits v) -> In o1 out -> o_row o1 = pother h -> In o2 out -> o_row o2 = pother g ->
         (o_track o1 = o_track o2 <-> connected CORNER mods u v)) /\
      (forall v h o, In v dropped -> In h (vhits v) -> In o out -> o_row o = pother h -> o_track o = (-1)%Z).
Proof.
  intros Hpaths Hmetric Hnorm Hblob Hscan Hd Hmax Hpos (h0 & e0 & Hh0 & He0).
  set (hin := hits_in_map round5 hits).
  assert (Hin0 : exists p, In p hin).
  { apply In_nth_error in Hh0. destruct Hh0 as (i & Hi). eexists. apply in_hin. exists i, h0, e0. split; [eassumption|]. split; [assumption|reflexivity]. }
  destruct Hin0 as (p0 & Hp0).
  assert (Hne : hin <> []) by (intros E; rewrite E in Hp0; destruct Hp0).
  assert (Pin : forall p, In p hin -> 0 < pe p).
  { intros p Hp. apply in_hin in Hp. destruct Hp as (i & h & e & E & Ee & ->). cbn. apply (Hpos h e); [now apply nth_error_In with i|assumption]. }
  destruct (C20_voxels_hold_the_hits hin dims strict Hne Hd) as (vs & Ev & Tv & _ & Nv & Sv & _ & Fv). destruct (Fv Pin) as [Pv Flv]. clear Fv.
  assert (Hv : vs <> []) by (intros ->; cbn in Pv; apply Permutation_nil in Pv; congruence).
  destruct (C23_drop_end_point_voxels paths thr min_voxels CORNER vs (S (length vs)) Hpaths Hv Nv Sv (or_introl Flv) ltac:(lia)) as (mods & dropped & Ed & Pd & Sp & Td & Fd & _ & _).
  (* the voxels left *)
  assert (Fm : forall v, In v mods -> filled v).
  { intros v Hv'. destruct (Fd v Hv') as [F|B]; [assumption|exfalso]. destruct (Sp v ltac:(apply in_app_iff; now left)) as (u & Hu & SP). destruct (Flv u Hu) as (Nh & _). destruct B as [B _].
    destruct SP as (_ & _ & _ & _ & _ & _ & _ & F2). rewrite B in F2. inversion F2. congruence. }
  assert (Nall : NoDup (map vid (mods ++ dropped))) by (eapply Permutation_NoDup; [symmetry; eassumption|assumption]).
  assert (Nm : NoDup (map vid mods)) by (rewrite map_app in Nall; now apply NoDup_app_remove_r in Nall).
  assert (Sm : same_size mods).
  { intros u v Hu Hv'. destruct (Sp u ltac:(apply in_app_iff; now left)) as (u' & Hu' & SPu). destruct (Sp v ltac:(apply in_app_iff; now left)) as (v' & Hv'' & SPv).
    destruct SPu as (_ & _ & _ & _ & A1 & A2 & A3 & _), SPv as (_ & _ & _ & _ & B1 & B2 & B3 & _). rewrite A1, A2, A3, B1, B2, B3. now apply Sv. }
  set (tracks := sort_by (fun a b => Qle_bool (track_energy b) (track_energy a)) (make_track_graphs CORNER mods)).
  destruct (C21_tracks_partition_the_voxels CORNER mods Sm (NoDup_map_inv _ _ Nm)) as (Pt & Net & Con). cbv zeta in Pt, Net, Con.
  assert (PT : Permutation (concat tracks) mods).
  { rewrite <- Pt. unfold tracks. rewrite sort_by_perm. reflexivity. }
  assert (Net' : forall t, In t tracks -> t <> []) by (intros t Ht; apply in_sort_by in Ht; now apply Net).
  assert (Sub : forall t v, In t tracks -> In v t -> In v mods) by (intros t v Ht Hv'; apply (Permutation_in _ PT), in_concat; eauto).
  assert (Ft : forall t, In t tracks -> forall v, In v t -> filled v) by (intros t Ht v Hv'; apply Fm; now apply (Sub t)).
  assert (Ncat : NoDup (map vid (concat tracks))) by (eapply Permutation_NoDup; [apply Permutation_map; symmetry; eassumption|assumption]).
  assert (Nt : forall t, In t tracks -> NoDup (map vid t)).
  { intros t Ht. apply in_split in Ht. destruct Ht as (l1 & l2 & E). rewrite E, concat_app in Ncat. cbn [concat] in Ncat. rewrite !map_app in Ncat. apply NoDup_app_remove_l in Ncat. now apply NoDup_app_remove_r in Ncat. }
  (* the hits *)
  assert (Keys : Permutation (map hkey (track_hits (mods ++ dropped))) (map hkey hin)).
  { rewrite (keys_moved vs (mods ++ dropped) Nv Pd Sp). now apply Permutation_map. }
  assert (KeyIn : forall v h, In v (mods ++ dropped) -> In h (vhits v) -> exists i th e, nth_error hits i = Some th /\ tEp th = Some e /\ pother h = i /\ hpos h = rounded round5 th).
  { intros v h Hv' Hh. assert (K : In (hkey h) (map hkey hin)). { apply (Permutation_in _ Keys). apply in_map. apply in_flat_map. eauto. }
    apply in_map_iff in K. destruct K as (p & Ep & Hp). apply in_hin in Hp. destruct Hp as (i & th & e & E & Ee & ->). exists i, th, e. split; [assumption|]. split; [assumption|].
    split; [apply (f_equal fst) in Ep|apply (f_equal snd) in Ep]; symmetry; exact Ep. }
  assert (Others : Permutation (map pother (track_hits (mods ++ dropped))) (map pother hin)).
  { apply (Permutation_map fst) in Keys. rewrite !map_map in Keys. exact Keys. }
  assert (NH : NoDup (map pother (track_hits (mods ++ dropped)))).
  { eapply Permutation_NoDup; [symmetry; exact Others|]. assert (A := all_rows round5 hits). assert (B := seq_NoDup (length hits) 0). apply (Permutation_NoDup (Permutation_sym A)) in B. now apply NoDup_app_remove_l in B. }
  assert (Eflag : existsb (fun h => match tEp h with None => true | Some _ => false end) hits = true <-> exists h, In h hits /\ tEp h = None).
  { rewrite existsb_exists. split; intros (h & Hh & E); exists h; (split; [assumption|]); [destruct (tEp h); [discriminate|reflexivity]|now rewrite E]. }
  (* the rows *)
  destruct vs as [|v0 vs'] eqn:Evs; [congruence|]. rewrite <- Evs in *.
  destruct (rmap_all_forall2 (fun ct => track_info paths norm blob_radius scan_radius event hits (vsize v0) (length tracks) (fst ct) (snd ct))
    (fun ct k => k_event k = event /\ k_id k = fst ct /\ k_energy k = track_energy (snd ct) /\ k_nvox k = length (snd ct) /\ k_nhits k = length (track_hits (snd ct)) /\ k_ntracks k = length tracks /\
       k_min k = cols3 (fun f => min_col f (track_hits (snd ct))) /\ k_max k = cols3 (fun f => max_col f (track_hits (snd ct))) /\ k_ave k = cols3 (fun f => wmean f (track_hits (snd ct))) /\
       0 <= k_eblob2 k /\ k_eblob2 k <= k_eblob1 k /\ k_eblob1 k <= k_energy k /\ (distinct_hits round5 hits -> 0 <= k_overlap k <= k_eblob2 k))
    (combine (seq 0 (length tracks)) tracks)) as (rows & Er & Hr).
  { intros [c t] Hct. apply in_combine_seq in Hct. destruct Hct as [_ Hct]. assert (Ht : In t tracks) by now apply nth_error_In in Hct.
    destruct (track_info_ok paths norm blob_radius scan_radius event hits Hpaths Hmetric Hnorm Hblob Hscan (vsize v0) (length tracks) c t (Net' t Ht) (Nt t Ht) (Ft t Ht))
      as (k & Ek & A1 & A2 & A3 & A3' & A4 & A5 & _ & A6 & A7 & A8 & _ & A9 & A10 & A11 & A12).
    exists k. cbn [fst snd]. split; [assumption|]. repeat (split; [assumption|]). intros DH. apply A12.
    - apply (NoDup_map_inv pother).
      assert (P2 : Permutation (map pother (track_hits (concat tracks ++ dropped))) (map pother (track_hits (mods ++ dropped)))).
      { apply Permutation_map. unfold track_hits. apply Permutation_flat_map. now apply Permutation_app_tail. }
      apply (Permutation_NoDup (Permutation_sym P2)) in NH. unfold track_hits in NH. rewrite flat_map_app, map_app in NH. apply NoDup_app_remove_r in NH.
      apply in_split in Ht. destruct Ht as (l1 & l2 & E). rewrite E, concat_app in NH. cbn [concat] in NH. rewrite !flat_map_app, !map_app in NH. apply NoDup_app_remove_l in NH. now apply NoDup_app_remove_r in NH.
    - intros h g Hh Hg Hs. apply in_flat_map in Hh, Hg. destruct Hh as (u & Hu & Hh), Hg as (v & Hv' & Hg).
      assert (Iu : In u (mods ++ dropped)) by (apply in_app_iff; left; now apply (Sub t)). assert (Iv : In v (mods ++ dropped)) by (apply in_app_iff; left; now apply (Sub t)).
      destruct (KeyIn u h Iu Hh) as (i & a & _ & Ea & _ & Ei & Pa). destruct (KeyIn v g Iv Hg) as (j & b & _ & Eb & _ & Ej & Pb).
      apply same_pos in Hs. unfold hpos, rounded in Pa, Pb. injection Pa as X1 X2 X3. injection Pb as Y1 Y2 Y3. rewrite X1, X2, X3, Y1, Y2, Y3 in Hs.
      destruct (Nat.eq_dec i j) as [Eij|D]; [|exfalso; exact (DH i j a b Ea Eb D Hs)].
      assert (Io : pother h = pother g) by congruence.
      assert (Ih : In h (track_hits (mods ++ dropped))) by (apply in_flat_map; eauto). assert (Ig : In g (track_hits (mods ++ dropped))) by (apply in_flat_map; eauto).
      clear - NH Io Ih Ig. induction (track_hits (mods ++ dropped)) as [|x l IH]; [destruct Ih|]. cbn [map] in NH. inversion NH as [|? ? N1 N2]; subst.
      destruct Ih as [->|Ih], Ig as [->|Ig]; [reflexivity| | |auto]; exfalso; apply N1; [rewrite Io|rewrite <- Io]; now apply in_map. }
  exists rows, (hits_out_of_map round5 hits ++ map (as_row hits (-1) (fun _ => None)) (flat_map vhits dropped) ++ labelled hits tracks), (existsb (fun h => match tEp h with None => true | Some _ => false end) hits).
  split.
  { unfold create_extract_track_blob_info. destruct hits as [|hh hl]; [destruct Hh0|].
    destruct (Z.ltb_spec max_num_hits (Z.of_nat (length (hh :: hl)))); [lia|].
    assert (Ex : existsb (fun h => Qltb 0 (pe h)) hin = true) by (apply existsb_exists; exists p0; split; [assumption|]; apply Qltb_lt; now apply Pin).
    fold hin. rewrite Ex. cbn [negb]. rewrite Ev. cbn [rbind]. rewrite Ed. rewrite Evs. cbn [rbind]. fold tracks. rewrite Er. cbn [rbind]. reflexivity. }
  (* what is known of the rows and of the hits written *)
  assert (Lr : length rows = length tracks).
  { apply Base.Forall2_len in Hr. rewrite combine_length, seq_length in Hr. lia. }
  assert (Rk : forall k, In k rows -> exists t, nth_error tracks (k_id k) = Some t /\ k_event k = event /\ k_energy k = track_energy t /\ k_nvox k = length t /\ k_nhits k = length (track_hits t) /\ k_ntracks k = length tracks /\
       k_min k = cols3 (fun f => min_col f (track_hits t)) /\ k_max k = cols3 (fun f => max_col f (track_hits t)) /\ k_ave k = cols3 (fun f => wmean f (track_hits t)) /\
       0 <= k_eblob2 k /\ k_eblob2 k <= k_eblob1 k /\ k_eblob1 k <= k_energy k /\ (distinct_hits round5 hits -> 0 <= k_overlap k <= k_eblob2 k)).
  { intros k Hk. destruct (F2_in_r _ _ _ _ Hr Hk) as ([c t] & Hct & A1 & A2 & A). cbn [fst snd] in *. apply in_combine_seq in Hct. destruct Hct as [_ Hct]. rewrite Nat.sub_0_r in Hct. exists t. rewrite A2. tauto. }
  assert (Ids : map k_id rows = seq 0 (length rows)).
  { rewrite Lr. assert (G : map k_id rows = map fst (combine (seq 0 (length tracks)) tracks)).
    { clear - Hr. induction Hr as [|ct k l m (_ & E & _) _ IH]; cbn; [reflexivity|]. now rewrite IH, E. }
    rewrite G. clear. generalize 0%nat. induction tracks as [|t l IH]; intros k; cbn; [reflexivity|]. now rewrite IH. }
  assert (Ens : map k_energy rows = map track_energy tracks).
  { assert (G : map k_energy rows = map (fun ct => track_energy (snd ct)) (combine (seq 0 (length tracks)) tracks)).
    { clear - Hr. induction Hr as [|ct k l m (_ & _ & E & _) _ IH]; cbn; [reflexivity|]. now rewrite IH, E. }
    rewrite G. clear. generalize 0%nat. induction tracks as [|t l IH]; intros k; cbn; [reflexivity|]. now rewrite IH. }
  assert (Tne : tracks <> []).
  { intros E. rewrite E in PT. cbn in PT. apply Permutation_nil in PT. rewrite PT in Td. unfold voxels_energy in Td at 1. cbn in Td. rewrite Tv in Td.
    assert (0 < hits_energy hin) by (now apply sumF_pos with p0). lra. }
  assert (Hm1 : forall c, of_track c (hits_out_of_map round5 hits ++ map (as_row hits (-1) (fun _ => None)) (flat_map vhits dropped) ++ labelled hits tracks) = of_track c (labelled hits tracks)).
  { intros c. unfold of_track. rewrite !filter_app.
    rewrite (PmapioProofs.filter_none_in _ (hits_out_of_map round5 hits)), (PmapioProofs.filter_none_in _ (map _ (flat_map vhits dropped))); [reflexivity| |].
    - intros o Ho. apply in_map_iff in Ho. destruct Ho as (h & <- & _). cbn [as_row o_track]. apply Z.eqb_neq. lia.
    - intros o Ho. apply in_hout in Ho. destruct Ho as (i & h & _ & _ & ->). cbn [as_row o_track]. apply Z.eqb_neq. lia. }
  set (out := hits_out_of_map round5 hits ++ map (as_row hits (-1) (fun _ => None)) (flat_map vhits dropped) ++ labelled hits tracks).
  assert (Rows : Permutation (map o_row out) (seq 0 (length hits))).
  { unfold out. rewrite !map_app, labelled_rows, map_map. cbn [as_row o_row]. rewrite <- (all_rows round5 hits). apply Permutation_app_head. fold hin. rewrite <- Others. unfold track_hits.
    rewrite flat_map_app, map_app. rewrite Permutation_app_comm. apply Permutation_app_tail. apply Permutation_map. now apply Permutation_flat_map. }
  split.
  2:{ exists vs, mods, dropped. split; [exact Ev|]. split; [exact Ed|].
    assert (Uniq : forall o o', In o out -> In o' out -> o_row o = o_row o' -> o = o').
    { assert (NR : NoDup (map o_row out)) by (eapply Permutation_NoDup; [symmetry; exact Rows|apply seq_NoDup]). clear - NR. intros o o' H1 H2 E. induction out as [|x l IH]; [destruct H1|].
      cbn [map] in NR. inversion NR as [|? ? N1 N2]; subst. destruct H1 as [->|H1], H2 as [->|H2]; [reflexivity| | |auto]; exfalso; apply N1; [rewrite E|rewrite <- E]; now apply in_map. }
    assert (Lab : forall c t v h o, nth_error tracks c = Some t -> In v t -> In h (vhits v) -> In o out -> o_row o = pother h -> o_track o = Z.of_nat c).
    { intros c t v h o Et Hv' Hh Ho Eo. assert (E : o = as_row hits (Z.of_nat c) (fun h => Some (pe h)) h); [|now rewrite E].
      apply Uniq; [assumption| |assumption]. unfold out. rewrite !in_app_iff. right; right. apply in_labelled. exists c, t, v, h. auto. }
    assert (Find : forall v, In v mods -> exists c t, nth_error tracks c = Some t /\ In v t).
    { intros v Hv'. apply (Permutation_in _ (Permutation_sym PT)) in Hv'. apply in_concat in Hv'. destruct Hv' as (t & Ht & Hv'). apply In_nth_error in Ht. destruct Ht as (c & Ht). eauto. }
    split; [|split].
    - assert (G : map k_nvox rows = map (@length voxel) tracks).
      { assert (G : map k_nvox rows = map (fun ct => length (snd ct)) (combine (seq 0 (length tracks)) tracks)).
        { clear - Hr. induction Hr as [|ct k l m (_ & _ & _ & E & _) _ IH]; cbn; [reflexivity|]. now rewrite IH, E. }
        rewrite G. clear. generalize 0%nat. induction tracks as [|t l IH]; intros k; cbn; [reflexivity|]. now rewrite IH. }
      rewrite G, <- (Permutation_length PT). clear. induction tracks as [|t l IH]; cbn; [reflexivity|]. now rewrite app_length, <- IH.
    - intros u v h g o1 o2 Hu Hh Hv' Hg Ho1 E1 Ho2 E2. rewrite <- (Con u v Hu Hv'). destruct (Find u Hu) as (c & t & Ec & Ht), (Find v Hv') as (c' & t' & Ec' & Ht').
      rewrite (Lab c t u h o1), (Lab c' t' v g o2) by assumption. split.
      + intros E. assert (c = c') by lia. subst c'. exists t. rewrite Ec in Ec'. injection Ec' as <-. split; [|now split]. apply (in_sort_by (fun a b => Qle_bool (track_energy b) (track_energy a))). now apply nth_error_In in Ec.
      + intros (w & Hw & Hu' & Hv''). apply (in_sort_by (fun a b => Qle_bool (track_energy b) (track_energy a))) in Hw. fold tracks in Hw. apply In_nth_error in Hw. destruct Hw as (d & Hd').
        assert (L1 := Lab d w u h o1 Hd' Hu' Hh Ho1 E1). assert (L2 := Lab d w v g o2 Hd' Hv'' Hg Ho2 E2).
        assert (L3 := Lab c t u h o1 Ec Ht Hh Ho1 E1). assert (L4 := Lab c' t' v g o2 Ec' Ht' Hg Ho2 E2). congruence.
    - intros v h o Hv' Hh Ho Eo. assert (E : o = as_row hits (-1) (fun _ => None) h); [|now rewrite E]. apply Uniq; [assumption| |assumption]. unfold out. rewrite !in_app_iff. right; left. apply in_map. apply in_flat_map. eauto. }
  unfold event_tracks. split; [exact Eflag|]. split; [exact Rows|]. split.
  { unfold out. intros o Ho. rewrite !in_app_iff in Ho. destruct Ho as [Ho|[Ho|Ho]].
    - apply in_hout in Ho. destruct Ho as (i & h & E & Ee & ->). exists h. cbn. split; [assumption|]. split; [reflexivity|]. split; [reflexivity|]. split; [tauto|]. split; [tauto|discriminate].
    - apply in_map_iff in Ho. destruct Ho as (h & <- & Hh). apply in_flat_map in Hh. destruct Hh as (v & Hv' & Hh).
      destruct (KeyIn v h ltac:(apply in_app_iff; now right) Hh) as (i & th & e & E & Ee & Ei & Ep). exists th. cbn [as_row o_row o_pos o_ec o_ep o_track]. rewrite Ei. split; [assumption|]. split; [exact Ep|]. split; [now rewrite (row_at hits i th E)|]. split; [tauto|]. split; [tauto|discriminate].
    - apply in_labelled in Ho. destruct Ho as (c & t & v & h & Et & Hv' & Hh & ->). assert (Ht : In t tracks) by now apply nth_error_In in Et.
      destruct (KeyIn v h ltac:(apply in_app_iff; left; now apply (Sub t)) Hh) as (i & th & e & E & Ee & Ei & Ep). exists th. cbn [as_row o_row o_pos o_ec o_ep o_track]. rewrite Ei. split; [assumption|]. split; [exact Ep|]. split; [now rewrite (row_at hits i th E)|].
      split; [split; [lia|discriminate]|]. split; [congruence|]. intros q Eq. injection Eq as <-. destruct (Ft t Ht v Hv') as (_ & P & _). now apply P. }
  split; [intros E; rewrite E in Lr; cbn in Lr; destruct tracks; [easy|discriminate]|]. split; [exact Ids|]. split.
  { assert (S : StronglySorted (fun a b => Qle_bool (track_energy b) (track_energy a) = true) tracks).
    { apply sort_by_sorted.
      - intros a b. rewrite !Qle_bool_iff. destruct (Qlt_le_dec (track_energy a) (track_energy b)); [right; now apply Qlt_le_weak|now left].
      - intros a b c. rewrite !Qle_bool_iff. intros; eapply Qle_trans; eassumption. }
    clear - S Ens. revert rows Ens. induction S as [|t l S IH F]; intros [|k rows] E; try discriminate; [constructor|]. cbn in E. injection E as E1 E2. constructor; [now apply IH|].
    apply Forall_forall. intros k' Hk'. assert (I : In (k_energy k') (map track_energy l)) by (rewrite <- E2; now apply in_map). apply in_map_iff in I. destruct I as (t' & Et' & Ht'). rewrite Forall_forall in F. specialize (F t' Ht'). rewrite Qle_bool_iff in F. congruence. }
  split.
  { rewrite <- (hin_energy round5 hits). fold hin. change (sumF pe hin) with (hits_energy hin). rewrite <- Tv, <- Td. unfold sumF at 1. rewrite Ens.
    change (sumQ (map track_energy tracks)) with (sumF track_energy tracks). unfold voxels_energy. rewrite <- (sumF_perm vE _ _ PT), sumF_concat. apply sumF_ext. intros t Ht. unfold track_energy. apply sumF_ext.
    intros v Hv'. destruct (Ft t Ht v Hv') as (_ & _ & Q). unfold hits_energy in Q. now rewrite Q. }
  split.
  { unfold out. intros o Ho. rewrite !in_app_iff in Ho. destruct Ho as [Ho|[Ho|Ho]].
    - left. apply in_hout in Ho. destruct Ho as (i & h & _ & _ & ->). reflexivity.
    - left. apply in_map_iff in Ho. destruct Ho as (h & <- & _). reflexivity.
    - right. apply in_labelled in Ho. destruct Ho as (c & t & v & h & Et & _ & _ & ->). assert (Hc : (c < length rows)%nat) by (rewrite Lr; apply nth_error_Some; congruence).
      destruct (nth_error rows c) as [k|] eqn:Ek; [|apply nth_error_None in Ek; lia]. exists k. split; [now apply nth_error_In in Ek|]. cbn. f_equal.
      assert (Ei : nth_error (map k_id rows) c = Some (k_id k)) by (now apply map_nth_error). rewrite Ids in Ei. rewrite nth_error_nth' with (d := 0%nat) in Ei by (rewrite seq_length; lia). rewrite seq_nth in Ei by lia. injection Ei as Ei. lia. }
  intros k Hk. destruct (Rk k Hk) as (t & Et & A1 & A2 & _ & A3 & A4 & A5 & A6 & A7 & A8 & A9 & A10 & A11). assert (Ht : In t tracks) by now apply nth_error_In in Et.
  split; [assumption|]. split; [congruence|]. cbv zeta. unfold out. rewrite Hm1, (of_track_labelled hits tracks (k_id k) t Et).
  assert (Nh : exists h, In h (track_hits t)).
  { destruct t as [|v t'] eqn:Etv; [exfalso; now apply (Net' [] Ht)|]. rewrite <- Etv in *. assert (Hv' : In v t) by (rewrite Etv; now left). destruct (Ft t Ht v Hv') as (Nv' & _). destruct (vhits v) as [|h l] eqn:Eh; [easy|]. exists h. apply in_flat_map. exists v. rewrite Eh. split; [assumption|now left]. }
  destruct Nh as (h1 & Hh1). assert (Ne : track_hits t <> []) by (intros E; rewrite E in Hh1; destruct Hh1).
  assert (PosT : 0 < sumF pe (track_hits t)).
  { apply sumF_pos with h1; [|assumption]. intros h Hh. apply in_flat_map in Hh. destruct Hh as (v & Hv' & Hh). destruct (Ft t Ht v Hv') as (_ & P & _). now apply P. }
  split; [intros E; apply map_eq_nil in E; contradiction|]. split; [now rewrite map_length|]. split; [rewrite A2, (sumF_as_row hits); apply track_energy_hits|].
  split; [rewrite A5, A6; now apply box_of|]. split; [rewrite A7; now apply centre_of|]. tauto.
Qed.
Print Assumptions C68_tracks_of_an_event.

(** the other outcomes *)
Theorem C68_too_many_hits round5 paths norm dims strict thr min_voxels blob_radius scan_radius max_num_hits event hits :
  hits <> [] -> (max_num_hits < Z.of_nat (length hits))%Z ->
  exists out, create_extract_track_blob_info round5 paths norm dims strict thr min_voxels blob_radius scan_radius max_num_hits event hits = Ok ([], out, true) /\
    length out = length hits /\
    forall i h, nth_error hits i = Some h -> nth_error out i = Some {| o_row := i; o_pos := (tX h, tY h, tZ h); o_ec := tEc h; o_ep := tEp h; o_track := -1 |}.
Proof.
  intros Hne Hmax. unfold create_extract_track_blob_info. destruct hits as [|h0 hl]; [easy|]. destruct (Z.ltb_spec max_num_hits (Z.of_nat (length (h0 :: hl)))); [|lia].
  eexists. split; [reflexivity|]. split; [apply length_mapi|]. intros i h E. now rewrite nth_error_mapi, E.
Qed.
Theorem C68_no_hits round5 paths norm dims strict thr min_voxels blob_radius scan_radius max_num_hits event :
  create_extract_track_blob_info round5 paths norm dims strict thr min_voxels blob_radius scan_radius max_num_hits event [] = Err IndexError.
Proof. reflexivity. Qed.
(** without energy there are no tracks, and only the hits in the map are written *)
Theorem C68_no_energy round5 paths norm dims strict thr min_voxels blob_radius scan_radius max_num_hits event hits :
  hits <> [] -> (Z.of_nat (length hits) <= max_num_hits)%Z -> (forall h e, In h hits -> tEp h = Some e -> e <= 0) ->
  exists out flag, create_extract_track_blob_info round5 paths norm dims strict thr min_voxels blob_radius scan_radius max_num_hits event hits = Ok ([], out, flag) /\
    (flag = true <-> exists h, In h hits /\ tEp h = None) /\
    (forall o, In o out -> o_track o = (-1)%Z) /\
    forall i, In i (map o_row out) <-> exists h e, nth_error hits i = Some h /\ tEp h = Some e.
Proof.
  intros Hne Hmax He. unfold create_extract_track_blob_info. destruct hits as [|h0 hl] eqn:Eh; [easy|]. rewrite <- Eh in *. destruct (Z.ltb_spec max_num_hits (Z.of_nat (length hits))); [lia|].
  assert (Ex : existsb (fun h => Qltb 0 (pe h)) (hits_in_map round5 hits) = false).
  { destruct (existsb _ _) eqn:E; [|reflexivity]. apply existsb_exists in E. destruct E as (p & Hp & E). apply Qltb_lt in E. apply in_hin in Hp. destruct Hp as (i & h & e & En & Ee & ->). cbn in E. apply nth_error_In in En. specialize (He h e En Ee). lra. }
  rewrite Ex. cbn [negb]. eexists. eexists. split; [reflexivity|]. split.
  { rewrite existsb_exists. split; intros (h & Hh & E); exists h; (split; [assumption|]); [destruct (tEp h); [discriminate|reflexivity]|now rewrite E]. }
  split; [intros o Ho; apply in_map_iff in Ho; destruct Ho as (p & <- & _); reflexivity|].
  intros i. rewrite map_map. cbn [as_row o_row]. rewrite in_map_iff. split.
  - intros (p & <- & Hp). apply in_hin in Hp. destruct Hp as (j & h & e & En & Ee & ->). cbn. eauto.
  - intros (h & e & En & Ee). eexists. split; [|apply in_hin; exists i, h, e; split; [exact En|]; split; [exact Ee|reflexivity]]. reflexivity.
Qed.
(** so a hit out of the map is lost when no other hit has energy *)
Theorem C68_lost_refuted : exists hits, hits <> [] /\ forall round5 paths norm,
  create_extract_track_blob_info round5 paths norm (1, 1, 1) true 1 1 1 None 10 0 hits = Ok ([], [], true).
Proof. exists [{| tX := 0; tY := 0; tZ := 0; tE := 1; tEc := None; tEp := None; tother := 0 |}]. split; [discriminate|reflexivity]. Qed.
(** and the flag of an event with too many hits does not tell about the map *)
Theorem C68_flag_refuted : exists hits, hits <> [] /\ (forall h, In h hits -> tEp h <> None) /\ forall round5 paths norm,
  exists out, create_extract_track_blob_info round5 paths norm (1, 1, 1) true 1 1 1 None 0 0 hits = Ok ([], out, true).
Proof. exists [{| tX := 0; tY := 0; tZ := 0; tE := 1; tEc := Some 1; tEp := Some 1; tother := 0 |}]. split; [discriminate|]. split; [intros h [<-|[]]; discriminate|]. intros. eexists. reflexivity. Qed.

Lemma unit_paths_metric : paths_metric unit_paths.
Proof.
  intros t u v _ _. unfold unit_paths. cbn [snd]. rewrite Nat.eqb_refl. destruct (Nat.eqb_spec (vid u) (vid v)) as [E|D], (Nat.eqb_spec (vid v) (vid u)) as [E'|D']; try congruence; split; reflexivity.
Qed.
Definition one_hit (x e : Q) (ep : val) (n : nat) : thit := {| tX := x; tY := 0; tZ := 0; tE := e; tEc := ep; tEp := ep; tother := n |}.
(** two tracks, and a hit out of the map *)
Definition four_hits : list thit := [one_hit 0 1 (Some 1) 0; one_hit 5 1 None 1; one_hit 10 1 (Some 2) 2; one_hit (21#2) 1 (Some 3) 3].
Example C68_four_hits : paths_ok unit_paths /\ paths_metric unit_paths /\ positive_dims (1, 1, 1) /\ (forall h e, In h four_hits -> tEp h = Some e -> 0 < e) /\ distinct_hits (fun x => x) four_hits /\
  match create_extract_track_blob_info (fun x => x) unit_paths (fun _ => 1) (1, 1, 1) true 0 1 1 None 10 7 four_hits with
  | Ok (rows, out, flag) => (map k_id rows, map k_nhits rows, map (fun o => (o_row o, o_track o)) out, flag) = ([0; 1]%nat, [2; 1]%nat, [(1%nat, -1); (2%nat, 0); (3%nat, 0); (0%nat, 1)]%Z, true)
  | Err _ => False
  end.
Proof.
  split; [apply unit_paths_ok|]. split; [apply unit_paths_metric|]. split; [now vm_compute|]. split.
  { intros h e [<-|[<-|[<-|[<-|[]]]]] E; try discriminate; injection E as <-; reflexivity. }
  split; [|vm_compute; reflexivity].
  intros i j a b Ha Hb D (E & _ & _).
  destruct i as [|[|[|[|i]]]], j as [|[|[|[|j]]]]; cbn in Ha, Hb; try lia; try (destruct i; discriminate); try (destruct j; discriminate); injection Ha as <-; injection Hb as <-; vm_compute in E; discriminate.
Qed.

(** two hits that cannot be told apart are counted twice in the overlap *)
Definition twice : list thit := [one_hit 0 1 (Some 1) 0; one_hit 0 1 (Some 1) 0].
Theorem C68_overlap_refuted :
  match create_extract_track_blob_info (fun x => x) unit_paths (fun _ => 1) (1, 1, 1) true 0 1 1 None 10 7 twice with
  | Ok ([k], _, _) => k_eblob2 k < k_overlap k
  | _ => False
  end.
Proof. vm_compute. reflexivity. Qed.
Print Assumptions C68_too_many_hits.
Print Assumptions C68_no_hits.
Print Assumptions C68_no_energy.
Print Assumptions C68_lost_refuted.
Print Assumptions C68_flag_refuted.
Print Assumptions C68_overlap_refuted.
