(** C41: the whole PSF production, from the hits of the files to the accumulated table *)
From Verif Require Import Base Arrays PeaksModel PeaksProofs BuffersProofs WfmProps PmapioProofs DbModel DbProps CorrModel CorrSpec CorrProps CorrMore PsfModel PsfSpec PsfProps.
Local Open Scope Q_scope.

(** ---- bins ---- *)
Lemma digitize_sorted x edges k : StronglySorted Qlt edges -> (k < length edges)%nat -> ((k < digitize x edges)%nat <-> nth k edges 0 <= x).
Proof.
  unfold digitize. intros S. revert k. induction S as [|e l S IH F]; intros k H; cbn [length] in *; [lia|]. cbn [filter]. rewrite Forall_forall in F. destruct (Qleb_spec e x) as [L|L].
  - cbn [length]. destruct k as [|k]; cbn [nth]; [split; [auto|lia]|]. rewrite <- IH by lia. lia.
  - assert (Z : filter (fun e => Qle_bool e x) l = []) by (apply filter_none_in; intros y Hy; apply Qleb_gt; specialize (F y Hy); lra). rewrite Z. cbn [length]. split; [lia|]. intros K. exfalso. destruct k as [|k]; cbn in K; [lra|]. assert (In (nth k l 0) l) by (apply nth_In; lia). specialize (F _ H0). lra.
Qed.
Lemma digitize_le x edges : (digitize x edges <= length edges)%nat.
Proof. unfold digitize. induction edges as [|e l IH]; cbn; [lia|]. destruct (Qle_bool e x); cbn; lia. Qed.
Lemma sorted_nth_lt l i j : StronglySorted Qlt l -> (i < j < length l)%nat -> nth i l 0 < nth j l 0.
Proof.
  intros S. revert i j. induction S as [|a l S IH F]; intros i j H; cbn [length] in *; [lia|]. rewrite Forall_forall in F. destruct i as [|i], j as [|j]; cbn [nth]; try lia.
  - apply F, nth_In. lia.
  - apply IH. lia.
Qed.
Lemma last_nth (l : list Q) : l <> [] -> last l 0 = nth (length l - 1) l 0.
Proof. induction l as [|a l IH]; [congruence|]. intros _. destruct l as [|b l]; [reflexivity|]. change (last (a :: b :: l) 0) with (last (b :: l) 0). rewrite IH by discriminate. cbn [length]. replace (S (S (length l)) - 1)%nat with (S (S (length l) - 1)) by lia. reflexivity. Qed.
Lemma bin_is_inside edges i x : StronglySorted Qlt edges -> (i < length edges - 1)%nat -> bin_is edges i x = inside_bin edges i x.
Proof.
  intros S H. assert (D := fun k Hk => digitize_sorted x edges k S Hk). assert (L := digitize_le x edges). set (d := digitize x edges) in *.
  assert (NE : edges <> []) by (intros ->; cbn in H; lia).
  assert (E : last edges 0 = nth (length edges - 1) edges 0) by now apply last_nth.
  assert (LL : x == last edges 0 -> d = length edges). { intros K. destruct (Nat.eq_dec d (length edges)) as [|K']; [assumption|]. exfalso. assert (K2 : nth (length edges - 1) edges 0 <= x) by (rewrite <- E; lra). apply D in K2; lia. }
  unfold bin_is, hist_bin, inside_bin. fold d.
  destruct (Qleb_spec (nth i edges 0) x) as [A|A]; cbn [andb].
  - apply D in A; [|lia]. destruct (Qltb_spec x (nth (Datatypes.S i) edges 0)) as [B|B]; cbn [orb].
    + assert (B' : ~ (Datatypes.S i < d)%nat) by (rewrite D by lia; lra). destruct (Qeqb_spec x (last edges 0)) as [C|C].
      * exfalso. specialize (LL C). lia.
      * replace ((1 <=? d)%nat) with true by (symmetry; apply Nat.leb_le; lia). replace ((d <? length edges)%nat) with true by (symmetry; apply Nat.ltb_lt; lia). cbn. apply Nat.eqb_eq. lia.
    + apply D in B; [|lia]. destruct (Nat.eqb_spec (Datatypes.S (Datatypes.S i)) (length edges)) as [C|C]; cbn [andb].
      * assert (d = length edges) by lia. replace (nth (Datatypes.S i) edges 0) with (last edges 0) by (rewrite E; f_equal; lia). destruct (Qleb_spec x (last edges 0)) as [G|G].
        -- destruct (Qeqb_spec x (last edges 0)) as [K|K].
           ++ replace ((1 <=? d - 1)%nat) with true by (symmetry; apply Nat.leb_le; lia). replace ((d - 1 <? length edges)%nat) with true by (symmetry; apply Nat.ltb_lt; lia). cbn. apply Nat.eqb_eq. lia.
           ++ exfalso. assert (K2 : (length edges - 1 < d)%nat) by lia. apply D in K2; [|lia]. rewrite <- E in K2. lra.
        -- destruct (Qeqb_spec x (last edges 0)) as [K|K]; [lra|]. replace ((d <? length edges)%nat) with false by (symmetry; apply Nat.ltb_ge; lia). now rewrite andb_false_r.
      * destruct (Qeqb_spec x (last edges 0)) as [K|K].
        -- rewrite (LL K). destruct ((1 <=? _) && _)%nat; [|reflexivity]. apply Nat.eqb_neq. lia.
        -- destruct ((1 <=? d) && (d <? length edges))%nat; [|reflexivity]. apply Nat.eqb_neq. lia.
  - assert (A' : ~ (i < d)%nat) by (rewrite D by lia; lra). destruct (Qeqb_spec x (last edges 0)) as [K|K].
    + exfalso. specialize (LL K). lia.
    + destruct ((1 <=? d) && (d <? length edges))%nat eqn:G; [|reflexivity]. apply andb_true_iff in G. destruct G as [G _]. apply Nat.leb_le in G. apply Nat.eqb_neq. lia.
Qed.
Lemma centre_spec edges i : (i < length edges - 1)%nat -> nth i (shift_to_bin_centers edges) 0 == centre edges i.
Proof. intros H. rewrite nth_centers by lia. unfold centre. field. Qed.
Lemma centre_lt edges i j : StronglySorted Qlt edges -> (i < j)%nat -> (j < length edges - 1)%nat -> centre edges i < centre edges j.
Proof.
  intros S H1 H2. unfold centre. assert (A := sorted_nth_lt edges i j S ltac:(lia)). assert (B := sorted_nth_lt edges (Datatypes.S i) (Datatypes.S j) S ltac:(lia)).
  apply Qlt_shift_div_l; [reflexivity|]. assert (E : (nth i edges 0 + nth (Datatypes.S i) edges 0) / 2 * 2 == nth i edges 0 + nth (Datatypes.S i) edges 0) by field. lra.
Qed.
Lemma centre_inj edges i j : StronglySorted Qlt edges -> (i < length edges - 1)%nat -> (j < length edges - 1)%nat -> centre edges i == centre edges j -> i = j.
Proof. intros S H1 H2 E. destruct (Nat.lt_trichotomy i j) as [L|[L|L]]; [|assumption|]; exfalso; [assert (K := centre_lt edges i j S L H2)|assert (K := centre_lt edges j i S L H1)]; lra. Qed.

Lemma fop_map {A B} (R : B -> B -> Prop) (f : A -> B) l : NoDup l -> (forall a b, In a l -> In b l -> a <> b -> R (f a) (f b)) -> ForallOrdPairs R (map f l).
Proof.
  induction 1 as [|a l N ND IH]; intros H; cbn; constructor.
  - apply Forall_forall. intros y Hy. apply in_map_iff in Hy. destruct Hy as (b & <- & Hb). apply H; [now left|now right|congruence].
  - apply IH. intros x y Hx Hy. apply H; now right.
Qed.
Lemma nodup_prod {A B} (l : list A) (m : list B) : NoDup l -> NoDup m -> NoDup (list_prod l m).
Proof.
  induction 1 as [|a l N ND IH]; intros M; cbn; [constructor|]. specialize (IH M).
  assert (G : forall m', NoDup m' -> NoDup (map (fun y => (a, y)) m' ++ list_prod l m)); [|now apply G].
  induction 1 as [|b m' N' ND' IH']; cbn; [assumption|]. constructor; [|assumption]. rewrite in_app_iff. intros [H|H].
  - apply in_map_iff in H. destruct H as (y & E & H). injection E as ->. contradiction.
  - apply in_prod_iff in H. tauto.
Qed.

Section City.
  Variable round2 : Q -> Q.
  Variables (xsectors ysectors xe ye : list Q).
  Hypothesis Sx : StronglySorted Qlt xe.
  Hypothesis Sy : StronglySorted Qlt ye.
  Notation sector := ((Q * Q) * (Q * Q))%type.
  Notation bin_key := (bin_key round2 xe ye).
  Notation entries := (entries round2 xsectors ysectors xe ye).
  Notation keyed := (keyed round2 xsectors ysectors xe ye).
  Notation sectors := (sectors xsectors ysectors).
  Definition frame_at (z : Q) (s : sector) (sel : list phit) : list prow :=
    psf_frame xe ye (round2 ((fst (fst s) + snd (fst s)) / 2)) (round2 ((fst (snd s) + snd (snd s)) / 2)) z sel.
  Lemma in_bins ij : In ij (bins xe ye) <-> (fst ij < length xe - 1)%nat /\ (snd ij < length ye - 1)%nat.
  Proof. destruct ij as [i j]. unfold bins. rewrite in_prod_iff, !in_seq. cbn. lia. Qed.
  Lemma nodup_bins : NoDup (bins xe ye). Proof. apply nodup_prod; apply seq_NoDup. Qed.
  Definition row_of (z : Q) (s : sector) (sel : list phit) (ij : nat * nat) : prow :=
    let '(f, n) := psf_bin xe ye sel ij in
    {| pkey := [nth (fst ij) (shift_to_bin_centers xe) 0; nth (snd ij) (shift_to_bin_centers ye) 0; 0; round2 ((fst (fst s) + snd (fst s)) / 2); round2 ((fst (snd s) + snd (snd s)) / 2); z]; factor := f; nevt := n |}.
  Lemma frame_rows z s sel : frame_at z s sel = map (row_of z s sel) (bins xe ye). Proof. reflexivity. Qed.
  Lemma row_key z s sel ij : In ij (bins xe ye) -> same_key (pkey (row_of z s sel ij)) (bin_key z s ij).
  Proof. intros H. apply in_bins in H. destruct H as [H1 H2]. unfold row_of, PsfSpec.bin_key. cbn. repeat constructor; try reflexivity; now apply centre_spec. Qed.
  Lemma keys_differ z s ij ij' : In ij (bins xe ye) -> In ij' (bins xe ye) -> same_key (bin_key z s ij) (bin_key z s ij') -> ij = ij'.
  Proof.
    intros H H' K. apply in_bins in H, H'. unfold PsfSpec.bin_key in K. inversion K as [|? ? ? ? K1 K']; subst. inversion K' as [|? ? ? ? K2 _]; subst. destruct ij as [i j], ij' as [i' j']. cbn in *.
    f_equal; [apply (centre_inj xe)|apply (centre_inj ye)]; tauto.
  Qed.
  Lemma frame_well_formed z s sel : well_formed (frame_at z s sel).
  Proof.
    rewrite frame_rows. split.
    - apply fop_map; [apply nodup_bins|]. intros a b Ha Hb NE K. apply NE. apply (keys_differ z s); [assumption|assumption|].
      eapply same_trans; [apply same_sym, (row_key z s sel a Ha)|]. eapply same_trans; [exact K|now apply row_key].
    - intros r Hr E. apply in_map_iff in Hr. destruct Hr as (ij & <- & _). cbn in *. now rewrite E.
  Qed.
  (** the entries of one sector *)
  Definition entries_at (z : Q) (s : sector) (sel : list phit) : list (key * Q) :=
    flat_map (fun ij => map (fun h => (bin_key z s ij, normq h)) (filter (fun h => inside_bin xe (fst ij) (relx h) && inside_bin ye (snd ij) (rely h)) sel)) (bins xe ye).
  Definition found (k : key) (e : list (key * Q)) : list (key * Q) := filter (fun a => key_eqb k (fst a)) e.
  Lemma found_app k a b : found k (a ++ b) = found k a ++ found k b. Proof. apply filter_app. Qed.
  Lemma frame_values z s sel k : N k (frame_at z s sel) = length (found k (entries_at z s sel)) /\ W k (frame_at z s sel) == sumF snd (found k (entries_at z s sel)).
  Proof.
    rewrite frame_rows. unfold entries_at. assert (Sub : forall ij, In ij (bins xe ye) -> In ij (bins xe ye)) by auto. revert Sub. generalize (bins xe ye) at 1 3 4 5 6. intros l. induction l as [|ij l IH]; intros Sub; [split; reflexivity|].
    destruct IH as [IH1 IH2]; [intros; apply Sub; now right|]. assert (Hij := Sub ij (or_introl eq_refl)). change (ij :: l) with ([ij] ++ l). rewrite map_app, N_app, W_app, flat_map_app, found_app, app_length, sumF_app, IH1, IH2.
    assert (E : N k (map (row_of z s sel) [ij]) = length (found k (flat_map (fun ij => map (fun h => (bin_key z s ij, normq h)) (filter (fun h => inside_bin xe (fst ij) (relx h) && inside_bin ye (snd ij) (rely h)) sel)) [ij]))
              /\ W k (map (row_of z s sel) [ij]) == sumF snd (found k (flat_map (fun ij => map (fun h => (bin_key z s ij, normq h)) (filter (fun h => inside_bin xe (fst ij) (relx h) && inside_bin ye (snd ij) (rely h)) sel)) [ij]))); [|destruct E as [-> ->]; split; reflexivity].
    clear IH1 IH2. cbn [map flat_map]. rewrite app_nil_r. unfold N, W. cbn [filter]. rewrite (key_eqb_ext_r k _ _ (row_key z s sel ij Hij)).
    apply in_bins in Hij. destruct Hij as [H1 H2].
    assert (F : filter (fun h => bin_is xe (fst ij) (relx h) && bin_is ye (snd ij) (rely h)) sel = filter (fun h => inside_bin xe (fst ij) (relx h) && inside_bin ye (snd ij) (rely h)) sel) by (apply filter_ext; intros h; now rewrite !bin_is_inside).
    assert (R : nevt (row_of z s sel ij) = length (filter (fun h => inside_bin xe (fst ij) (relx h) && inside_bin ye (snd ij) (rely h)) sel)) by (cbn; now rewrite F).
    assert (R2 : factor (row_of z s sel ij) * qn (nevt (row_of z s sel ij)) == sumF normq (filter (fun h => inside_bin xe (fst ij) (relx h) && inside_bin ye (snd ij) (rely h)) sel)).
    { rewrite R. cbn. rewrite F. destruct (Nat.eqb_spec (length (filter (fun h => inside_bin xe (fst ij) (relx h) && inside_bin ye (snd ij) (rely h)) sel)) 0) as [E|E].
      - apply length_zero_iff_nil in E. rewrite E. cbn. unfold sumF. cbn. lra.
      - field. now apply qn_nz. }
    set (inside := filter _ sel) in *. unfold found. rewrite filter_map_swap. cbn [fst]. destruct (key_eqb k (bin_key z s ij)) eqn:K; cbn [map].
    - rewrite filter_all_in by reflexivity. rewrite map_length, sumF_map. cbn [snd]. unfold sumN. cbn [fold_right]. rewrite R, Nat.add_0_r. split; [reflexivity|]. unfold sumF at 1. cbn [map sumQ]. rewrite Qplus_0_r. exact R2.
    - rewrite filter_none_in by reflexivity. split; reflexivity.
  Qed.
  (** the tables of one slice *)
  Definition frames_of (z : Q) (rows : list phit) : list (list prow) :=
    map (fun xyr => let '(x, y, sel) := xyr in psf_frame xe ye x y z sel) (split_in_xy round2 xsectors ysectors rows).
  Lemma frames_sectors z rows : frames_of z rows = flat_map (fun s => match filter (in_sector s) rows with [] => [] | sel => [frame_at z s sel] end) sectors.
  Proof.
    unfold frames_of, split_in_xy, PsfSpec.sectors. generalize (intervals xsectors) as X. intros X. induction X as [|xx X IH]; [reflexivity|]. cbn [flat_map list_prod]. rewrite map_app, flat_map_app, IH. f_equal.
    generalize (intervals ysectors) as Y. intros Y. induction Y as [|yy Y IHY]; [reflexivity|]. cbn [flat_map map]. rewrite map_app, IHY. f_equal. unfold in_sector. cbn [fst snd].
    now destruct (filter _ rows).
  Qed.
  Lemma frames_values z rows k : N k (concat (frames_of z rows)) = length (found k (entries z rows)) /\ W k (concat (frames_of z rows)) == sumF snd (found k (entries z rows)).
  Proof.
    rewrite frames_sectors. unfold PsfSpec.entries. induction sectors as [|s l IH]; [split; reflexivity|]. cbn [flat_map]. rewrite concat_app, N_app, W_app, found_app, app_length, sumF_app. destruct IH as [-> ->].
    assert (E : flat_map (fun ij => map (fun h => (bin_key z s ij, normq h)) (filter (fun h => in_sector s h && inside_bin xe (fst ij) (relx h) && inside_bin ye (snd ij) (rely h)) rows)) (bins xe ye) = entries_at z s (filter (in_sector s) rows)).
    { unfold entries_at. apply flat_map_ext. intros ij. f_equal. rewrite filter_filter'. apply filter_ext. intros h. now rewrite andb_assoc. }
    rewrite E. destruct (filter (in_sector s) rows) as [|h sel] eqn:F.
    - unfold entries_at. cbn. rewrite flat_map_nil. split; reflexivity.
    - cbn [concat]. rewrite app_nil_r. destruct (frame_values z s (h :: sel) k) as [-> ->]. split; reflexivity.
  Qed.
  Lemma frames_keys z rows k : has_key (concat (frames_of z rows)) k <-> keyed z rows k.
  Proof.
    rewrite frames_sectors. split.
    - intros (r & Hr & K). apply in_concat in Hr. destruct Hr as (f & Hf & Hr). apply in_flat_map in Hf. destruct Hf as (s & Hs & Hf). destruct (filter (in_sector s) rows) as [|h sel] eqn:F; [destruct Hf|]. destruct Hf as [<-|[]].
      rewrite frame_rows in Hr. apply in_map_iff in Hr. destruct Hr as (ij & <- & Hij). assert (Hh : In h (filter (in_sector s) rows)) by (rewrite F; now left). apply filter_In in Hh. destruct Hh as [Hh1 Hh2]. apply in_bins in Hij as Hb.
      exists s, ij, h. repeat (split; [tauto|]). eapply same_trans; [exact K|now apply row_key].
    - intros (s & ij & h & Hs & Hh & Hin & H1 & H2 & K). assert (Hij : In ij (bins xe ye)) by (apply in_bins; now split). assert (Hf : In h (filter (in_sector s) rows)) by (apply filter_In; now split).
      exists (row_of z s (filter (in_sector s) rows) ij). split.
      + apply in_concat. exists (frame_at z s (filter (in_sector s) rows)). split; [|rewrite frame_rows; now apply in_map]. apply in_flat_map. exists s. split; [assumption|]. destruct (filter (in_sector s) rows); [destruct Hf|now left].
      + eapply same_trans; [exact K|]. now apply same_sym, row_key.
  Qed.
  Lemma frames_well_formed z rows : Forall well_formed (frames_of z rows).
  Proof. rewrite frames_sectors. apply Forall_forall. intros f Hf. apply in_flat_map in Hf. destruct Hf as (s & _ & Hf). destruct (filter (in_sector s) rows); [destruct Hf|]. destruct Hf as [<-|[]]. apply frame_well_formed. Qed.
  (** all slices together *)
  Definition all_frames (slices : list (Q * list phit)) : list (list prow) := flat_map (fun zr => frames_of (fst zr) (snd zr)) slices.
  Lemma all_values slices k : N k (concat (all_frames slices)) = length (found k (flat_map (fun zr => entries (fst zr) (snd zr)) slices)) /\ W k (concat (all_frames slices)) == sumF snd (found k (flat_map (fun zr => entries (fst zr) (snd zr)) slices)).
  Proof. unfold all_frames. induction slices as [|zr l IH]; [split; reflexivity|]. cbn [flat_map]. rewrite concat_app, N_app, W_app, found_app, app_length, sumF_app. destruct IH as [-> ->], (frames_values (fst zr) (snd zr) k) as [-> ->]. split; reflexivity. Qed.
  Lemma all_keys slices k : has_key (concat (all_frames slices)) k <-> exists zr, In zr slices /\ keyed (fst zr) (snd zr) k.
  Proof.
    unfold all_frames. induction slices as [|zr l IH]; cbn [flat_map concat]; [split; [intros (r & [] & _)|intros (zr & [] & _)]|]. rewrite concat_app, has_key_app, IH, frames_keys. split.
    - intros [H|(zr' & H & K)]; [exists zr|exists zr']; (split; [|assumption]); [now left|now right].
    - intros (zr' & [<-|H] & K); [now left|right; now exists zr'].
  Qed.
  Lemma all_well_formed slices : Forall well_formed (all_frames slices).
  Proof. unfold all_frames. induction slices as [|zr l IH]; cbn; [constructor|]. apply Forall_app. split; [apply frames_well_formed|assumption]. Qed.
  Lemma slices_psf slices t : represents (concat (all_frames slices)) t -> is_psf round2 xsectors ysectors xe ye slices t.
  Proof.
    intros (D & P & V & Z). split; [assumption|]. split; [intros k; rewrite <- all_keys; apply P|]. intros r Hr. eexists. split; [apply picks_filter; reflexivity|]. fold (found (pkey r) (flat_map (fun zr => entries (fst zr) (snd zr)) slices)).
    destruct (V (pkey r)) as [V1 V2], (N_single t (pkey r) r D Hr (same_refl _)) as [E1 E2], (all_values slices (pkey r)) as [A1 A2]. set (fd := found _ _) in *. assert (EN : nevt r = length fd) by congruence. split; [assumption|]. split.
    - intros E. apply Z; [assumption|]. now rewrite EN, E.
    - intros NE. rewrite <- A2, <- V2, E2, EN. field. apply qn_nz. destruct fd; [congruence|discriminate].
  Qed.
  Lemma frames_occupied slices : all_frames slices <> [] <-> occupied xsectors ysectors slices.
  Proof.
    unfold all_frames, occupied. split.
    - intros NE. destruct (flat_map _ slices) as [|f l] eqn:E; [congruence|]. assert (Hf : In f (flat_map (fun zr => frames_of (fst zr) (snd zr)) slices)) by (rewrite E; now left). apply in_flat_map in Hf. destruct Hf as (zr & Hz & Hf). rewrite frames_sectors in Hf. apply in_flat_map in Hf. destruct Hf as (s & Hs & Hf).
      destruct (filter (in_sector s) (snd zr)) as [|h sel] eqn:F; [destruct Hf|]. assert (Hh : In h (filter (in_sector s) (snd zr))) by (rewrite F; now left). apply filter_In in Hh. exists zr, s, h. tauto.
    - intros (zr & s & h & Hz & Hs & Hh & Hi) E. assert (Hf : In h (filter (in_sector s) (snd zr))) by (apply filter_In; now split).
      assert (K : In (frame_at (fst zr) s (filter (in_sector s) (snd zr))) (flat_map (fun zr => frames_of (fst zr) (snd zr)) slices)); [|rewrite E in K; destruct K]. apply in_flat_map. exists zr. split; [assumption|]. rewrite frames_sectors. apply in_flat_map. exists s. split; [assumption|]. destruct (filter (in_sector s) (snd zr)); [destruct Hf|now left].
  Qed.
  Variables (x0 x1 y0 y1 : Q) (sensors : list (Q * Q)) (zbins : list Q).
  Notation process := (process_hits x0 x1 y0 y1 sensors).
  Definition slice_of (f : list hit) (ab : Q * Q) : list hit := filter (fun h => in_range (hZ h) (fst ab) (snd ab)) f.
  Definition process_slice (fz : list hit * (Q * Q)) : result (Q * list phit) := rbind (process (slice_of (fst fz) (snd fz))) (fun rows => Ok ((fst (snd fz) + snd (snd fz)) / 2, rows)).
  Notation file_psfs := (psfs_of_file round2 x0 x1 y0 y1 sensors zbins xsectors ysectors xe ye).
  Notation city := (eutropia round2 x0 x1 y0 y1 sensors zbins xsectors ysectors xe ye).
  Lemma rmap_app' {A B} (f : A -> result B) l m : rmap f (l ++ m) = rbind (rmap f l) (fun x => rbind (rmap f m) (fun y => Ok (x ++ y))).
  Proof. induction l as [|a l IH]; cbn; [destruct (rmap f m); reflexivity|]. destruct (f a); cbn; [|reflexivity]. rewrite IH. destruct (rmap f l); cbn; [|reflexivity]. destruct (rmap f m); reflexivity. Qed.
  Lemma no_frames z : frames_of z [] = [].
  Proof. rewrite frames_sectors. cbn. apply flat_map_nil. Qed.
  Lemma file_slices f : file_psfs f = rbind (rmap process_slice (map (pair f) (intervals zbins))) (fun sl => Ok (all_frames sl)).
  Proof.
    unfold psfs_of_file, split_in_z. induction (intervals zbins) as [|ab l IH]; [reflexivity|]. cbn [flat_map map]. fold (slice_of f ab). cbn [rmap]. unfold process_slice at 1. cbn [fst snd].
    destruct (slice_of f ab) as [|h sel] eqn:E.
    - cbn [app]. rewrite IH. cbn. destruct (rmap process_slice (map (pair f) l)) as [sl|e]; cbn; [|reflexivity]. unfold all_frames. cbn [flat_map]. now rewrite no_frames.
    - cbn [app rmap fst snd]. destruct (process (h :: sel)) as [rows|e]; cbn [rbind]; [|reflexivity].
      destruct (rmap _ (flat_map _ l)) as [fs|e] eqn:G; cbn [rbind] in IH |- *; destruct (rmap process_slice (map (pair f) l)) as [sl|e']; cbn [rbind] in IH |- *; try discriminate; [|congruence]. injection IH as IH. cbn [concat]. unfold all_frames. cbn [flat_map]. fold (all_frames sl). now rewrite IH.
  Qed.
  Lemma all_frames_app a b : all_frames (a ++ b) = all_frames a ++ all_frames b. Proof. apply flat_map_app. Qed.
  Lemma city_slices files : city files = rbind (rmap process_slice (list_prod files (intervals zbins))) (fun sl => Ok (fold_left combine_psfs (all_frames sl) None)).
  Proof.
    unfold eutropia. assert (E : rbind (rmap file_psfs files) (fun fr => Ok (concat fr)) = rbind (rmap process_slice (list_prod files (intervals zbins))) (fun sl => Ok (all_frames sl))).
    { induction files as [|f files IH]; [reflexivity|]. cbn [rmap list_prod]. change (map (fun y => (f, y)) (intervals zbins)) with (map (pair f) (intervals zbins)). rewrite rmap_app', file_slices.
      destruct (rmap process_slice (map (pair f) (intervals zbins))) as [sl|e]; cbn [rbind]; [|reflexivity].
      destruct (rmap file_psfs files) as [fr|e]; destruct (rmap process_slice (list_prod files (intervals zbins))) as [sl'|e']; cbn [rbind] in IH |- *; try discriminate; [|congruence]. injection IH as IH. cbn [concat]. now rewrite all_frames_app, IH. }
    destruct (rmap file_psfs files) as [fr|e]; destruct (rmap process_slice (list_prod files (intervals zbins))) as [sl|e']; cbn [rbind] in E |- *; try discriminate; congruence.
  Qed.
  Lemma slices_processed files slices : rmap process_slice (list_prod files (intervals zbins)) = Ok slices <-> processed x0 x1 y0 y1 sensors zbins files slices.
  Proof.
    unfold processed. generalize (list_prod files (intervals zbins)) as l. intros l. revert slices. induction l as [|fz l IH]; intros slices; cbn [rmap].
    - split; [intros E; injection E as <-; constructor|intros H; inversion H; reflexivity].
    - unfold process_slice at 1. unfold slice_of. split.
      + destruct (process _) as [rows|e] eqn:P; cbn [rbind]; [|discriminate]. destruct (rmap process_slice l) as [sl|e]; [|discriminate]. intros E. injection E as <-. constructor; [split; [reflexivity|assumption]|now apply IH].
      + intros H. inversion H as [|? zr ? sl [H1 H2] H3]; subst. rewrite H2. cbn [rbind]. apply IH in H3. rewrite H3. destruct zr as [z rows]. cbn in H1. now subst z.
  Qed.
  (** the table written by the city is the PSF of all processed hits of all its files *)
  Theorem C41_city files t : city files = Ok t -> exists slices, processed x0 x1 y0 y1 sensors zbins files slices /\
    match t with Some t => is_psf round2 xsectors ysectors xe ye slices t | None => ~ occupied xsectors ysectors slices end.
  Proof.
    rewrite city_slices. destruct (rmap process_slice _) as [slices|e] eqn:E; [|discriminate]. cbn [rbind]. intros H. injection H as <-. exists slices. split; [now apply slices_processed|].
    assert (O := frames_occupied slices). assert (WF := all_well_formed slices). assert (PS := slices_psf slices). destruct (all_frames slices) as [|f fs] eqn:A.
    - cbn. intros K. apply O in K. congruence.
    - destruct (frames_represents (f :: fs)) as (t & -> & R); [discriminate|assumption|]. apply PS. exact R.
  Qed.
  (** it fails only if the processing of some slice fails *)
  Theorem C41_city_total files slices : processed x0 x1 y0 y1 sensors zbins files slices -> exists t, city files = Ok t.
  Proof. intros H. apply slices_processed in H. rewrite city_slices, H. cbn. eexists. reflexivity. Qed.
  Lemma occupied_dec slices : occupied xsectors ysectors slices \/ ~ occupied xsectors ysectors slices.
  Proof. rewrite <- frames_occupied. destruct (all_frames slices); [right; congruence|left; discriminate]. Qed.
  Lemma found_perm k a b : Permutation a b -> Permutation (found k a) (found k b). Proof. apply filter_perm. Qed.
  Notation all_entries := (flat_map (fun zr : Q * list phit => entries (fst zr) (snd zr))).
  (** the result depends only on the entries and on the occupied sectors *)
  Lemma same_slices sl sl' : Permutation (all_entries sl) (all_entries sl') -> (forall k, (exists zr, In zr sl /\ keyed (fst zr) (snd zr) k) <-> (exists zr, In zr sl' /\ keyed (fst zr) (snd zr) k)) ->
    (occupied xsectors ysectors sl <-> occupied xsectors ysectors sl') ->
    same_result (Ok (fold_left combine_psfs (all_frames sl) None)) (Ok (fold_left combine_psfs (all_frames sl') None)).
  Proof.
    intros P K O. rewrite <- !frames_occupied in O. assert (WF := all_well_formed sl). assert (WF' := all_well_formed sl').
    assert (KK : forall k, has_key (concat (all_frames sl)) k <-> has_key (concat (all_frames sl')) k) by (intros k; rewrite !all_keys; apply K).
    assert (VV : forall k, N k (concat (all_frames sl)) = N k (concat (all_frames sl')) /\ W k (concat (all_frames sl)) == W k (concat (all_frames sl'))).
    { intros k. destruct (all_values sl k) as [-> ->], (all_values sl' k) as [-> ->]. assert (F := found_perm k _ _ P). split; [now apply Permutation_length|now apply sumF_perm]. }
    destruct (all_frames sl) as [|f fs], (all_frames sl') as [|f' fs']; [exact I|exfalso; apply O; [discriminate|reflexivity]|exfalso; assert (f :: fs <> []) by discriminate; apply O in H; congruence|].
    destruct (frames_represents (f :: fs)) as (t & E & R); [discriminate|assumption|]. destruct (frames_represents (f' :: fs')) as (t' & E' & R'); [discriminate|assumption|]. rewrite E, E'. cbn. apply (represents_same (concat (f' :: fs'))); [|assumption]. eapply represents_ext; eassumption.
  Qed.
  Lemma rmap_perm {A B} (f : A -> result B) l m : Permutation l m -> forall r, rmap f l = Ok r -> exists r', rmap f m = Ok r' /\ Permutation r r'.
  Proof.
    induction 1 as [|a l m P IH|a b l|l m n P1 IH1 P2 IH2]; intros r E; cbn in *.
    - exists r. now split.
    - destruct (f a); [|discriminate]. destruct (rmap f l) as [r0|]; [|discriminate]. injection E as <-. destruct (IH r0 eq_refl) as (r' & -> & P'). eexists. split; [reflexivity|now constructor].
    - destruct (f b); [|discriminate]. destruct (f a); [|discriminate]. destruct (rmap f l); [|discriminate]. injection E as <-. eexists. split; [reflexivity|constructor].
    - destruct (IH1 r E) as (r1 & E1 & P3). destruct (IH2 r1 E1) as (r2 & E2 & P4). exists r2. split; [assumption|etransitivity; eassumption].
  Qed.
  Lemma flat_map_perm {A B} (f : A -> list B) l m : Permutation l m -> Permutation (flat_map f l) (flat_map f m).
  Proof. induction 1; cbn; [constructor|now apply Permutation_app_head|rewrite !app_assoc; apply Permutation_app_tail, Permutation_app_comm|etransitivity; eassumption]. Qed.
  Lemma list_prod_perm {A B} (l m : list A) (b : list B) : Permutation l m -> Permutation (list_prod l b) (list_prod m b).
  Proof. intros P. assert (E : forall k : list A, list_prod k b = flat_map (fun a => map (pair a) b) k) by (intros k; induction k as [|x k IH]; cbn; [reflexivity|now rewrite IH]). rewrite !E. now apply flat_map_perm. Qed.
  Lemma slices_perm_result sl sl' : Permutation sl sl' -> same_result (Ok (fold_left combine_psfs (all_frames sl) None)) (Ok (fold_left combine_psfs (all_frames sl') None)).
  Proof.
    intros P. apply same_slices; [now apply flat_map_perm| |].
    - intros k. split; intros (zr & H & K); exists zr; (split; [|assumption]); (eapply Permutation_in; [|eassumption]); [|symmetry]; assumption.
    - unfold occupied. split; intros (zr & s & h & H & K); exists zr, s, h; (split; [|assumption]); (eapply Permutation_in; [|eassumption]); [|symmetry]; assumption.
  Qed.
  (** the order of the files does not matter *)
  Theorem C41_files_order files files' : Permutation files files' -> same_result (city files) (city files').
  Proof.
    intros P. apply (list_prod_perm _ _ (intervals zbins)) in P. rewrite !city_slices. destruct (rmap process_slice (list_prod files (intervals zbins))) as [sl|e] eqn:E.
    - destruct (rmap_perm process_slice _ _ P sl E) as (sl' & -> & P'). cbn [rbind]. now apply slices_perm_result.
    - destruct (rmap process_slice (list_prod files' (intervals zbins))) as [sl'|e'] eqn:E'; [|exact I]. destruct (rmap_perm process_slice _ _ (Permutation_sym P) sl' E') as (sl & K & _). congruence.
  Qed.
End City.
Print Assumptions C41_city.
Print Assumptions C41_city_total.
Print Assumptions C41_files_order.
