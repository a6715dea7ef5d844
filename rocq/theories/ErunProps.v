(** C108: the tables of a run of esmeralda *)
From Coq Require Import Sorted NArith.
From Verif Require Import Base PeaksModel PeaksMore Arrays ReadModel ReadSpec ReadProps CorrModel CorrSpec CorrMore CorrProps HitsModel HitsSpec HitsProofs HitsProps EsmModel EsmSpec EsmProps PaolinaModel PaolinaSpec PaolinaProps DbModel DbProps TopoModel TopoSpec TopoTrack TopoProps TopoSummary ErunModel ErunSpec.
Local Open Scope Q_scope.

(** energies after the threshold *)
Definition at_least_0 (x : num) : Prop := match x with Some q => 0 <= q | None => True end.
Lemma threshold_column th hits h : 0 < th -> (forall g, In g hits -> 0 <= HitsSpec.val (hEc g)) -> In h (threshold_hits th hits) ->
  if is_nn h then exists q, hEc h = Some q /\ 0 <= q else positive (hEc h).
Proof.
  intros T P Hh. unfold threshold_hits in Hh. destruct (Qleb_spec th 0) as [C|_]; [lra|]. apply in_flat_map in Hh. destruct Hh as (z & _ & Hh).
  set (s := filter (fun g => Qeqb (hZ g) z) hits) in *. assert (Ps : forall g, In g s -> 0 <= HitsSpec.val (hEc g)) by (intros g Hg; apply filter_In in Hg; now apply P). clearbody s.
  assert (S0 : 0 <= nansum (map hEc s)) by (rewrite nansum_total; unfold total; now apply sumF_nonneg).
  unfold apply_threshold in Hh. destruct (filter (fun g => Qle_bool th (hQ g)) s) as [|a sel] eqn:E.
  - destruct s as [|f r]; [easy|]. destruct Hh as [<-|[]]. assert (N : is_nn (empty_hit f (nansum (map hE (f :: r))) (nansum (map hEc (f :: r)))) = true) by reflexivity. rewrite N. eexists. split; [reflexivity|exact S0].
  - rewrite <- E in Hh. assert (Q0 : forall g, In g (filter (fun g => Qle_bool th (hQ g)) s) -> th <= hQ g) by (intros g Hg; apply filter_In in Hg; now apply Qle_bool_iff).
    assert (D : 0 < sumF hQ (filter (fun g => Qle_bool th (hQ g)) s) + EPSILON) by (pose proof eps_pos; assert (0 <= sumF hQ (filter (fun g => Qle_bool th (hQ g)) s)) by (apply sumF_nonneg; intros g Hg; specialize (Q0 g Hg); lra); lra).
    rewrite E in *. set (d := sumF hQ (a :: sel) + EPSILON) in *. clearbody d. apply in_map_iff in Hh. destruct Hh as (g & <- & Hg). specialize (Q0 g Hg). change (is_nn _) with (is_nn g). rewrite (above_not_nn th g T Q0). cbn [hEc]. unfold ndiv. destruct (Qeqb_spec d 0) as [C|_]; [lra|]. cbn [nmul].
    eexists. split; [reflexivity|]. pose proof eps_pos. apply Qmult_lt_0_compat; [|lra]. apply Qlt_shift_div_l; lra.
Qed.
Lemma thresholder_positive th sp hits h : 0 < th -> (forall g, In g hits -> 0 <= HitsSpec.val (hEc g)) -> In h (threshold_hits_and_merge_nn th sp hits) -> positive (hEc h).
Proof.
  intros T P. unfold threshold_hits_and_merge_nn. assert (K : forall g, In g (threshold_hits th hits) -> if is_nn g then exists q, hEc g = Some q /\ 0 <= q else positive (hEc g)) by (intros g; now apply threshold_column).
  set (t := threshold_hits th hits) in *. clearbody t. unfold merge_NN_hits. destruct (existsb is_nn t) eqn:Ex.
  - intros Hh. apply in_map_iff in Hh. destruct Hh as (g & <- & Hg). cbn [hEc]. set (rest := filter (fun h => negb (is_nn h)) t) in *. assert (Kr : forall x, In x rest -> positive (hEc x)) by (intros x Hx; apply filter_In in Hx; destruct Hx as [Hx Hn]; specialize (K x Hx); now destruct (is_nn x)).
    destruct (Kr g Hg) as (e & Ee & He). unfold corrected. rewrite Ee.
    assert (C : exists q, fold_left (fun acc nn => nadd acc (correction sp rest hEc nn g)) (filter is_nn t) (Some 0) = Some q /\ 0 <= q).
    { assert (G : forall l a, (forall nn, In nn l -> exists q, correction sp rest hEc nn g = Some q /\ 0 <= q) -> 0 <= a -> exists q, fold_left (fun acc nn => nadd acc (correction sp rest hEc nn g)) l (Some a) = Some q /\ 0 <= q).
      { induction l as [|n l IH]; intros a H A; [exists a; now split|]. cbn [fold_left]. destruct (H n (or_introl eq_refl)) as (q & -> & Hq). cbn [nadd]. apply IH; [intros; apply H; now right|lra]. }
      apply G; [|lra]. intros nn Hn. apply filter_In in Hn. destruct Hn as [Hn N]. specialize (K nn Hn). rewrite N in K. destruct K as (q & Eq & Hq). unfold correction. destruct (closest sp rest nn g) eqn:Cl; [|exists 0; split; [reflexivity|lra]].
      rewrite Eq, Ee. cbn [nmul]. rewrite nansum_total. assert (Tp : 0 < total hEc (filter (closest sp rest nn) rest)).
      { unfold total. apply PaolinaDrop.sumF_pos with g; [|apply filter_In; now split]. intros x Hx. apply filter_In in Hx. destruct (Kr x (proj1 Hx)) as (y & -> & Hy). exact Hy. }
      set (tt := total hEc _) in *. clearbody tt. unfold ndiv. destruct (Qeqb_spec tt 0) as [C|_]; [lra|]. eexists. split; [reflexivity|]. apply Qle_shift_div_l; [assumption|]. rewrite Qmult_0_l. apply Qmult_le_0_compat; lra. }
    destruct C as (q & -> & Hq). cbn [nadd]. exists (e + q). split; [reflexivity|lra].
  - intros Hh. specialize (K h Hh). destruct (is_nn h) eqn:N; [|exact K]. exfalso. assert (existsb is_nn t = true) by (apply existsb_exists; eauto). congruence.
Qed.

Lemma written_some round5 paths norm dims strict ethr minv blob scan maxh t ev hits rows out flag s : copy_Efield t hits <> [] ->
  create_extract_track_blob_info round5 paths norm dims strict ethr minv blob scan maxh ev (copy_Efield t hits) = Ok (rows, out, flag) -> make_event_summary ev rows (sort_hits out) flag = Ok s ->
  write_tracks_info round5 paths norm dims strict ethr minv blob scan maxh t ev hits = Ok {| w_hits_passed := true; w_summary := s; w_topology := [negb (length rows =? 0)%nat]; w_hits := sort_hits out; w_tracks := rows |}.
Proof. intros H E1 E2. unfold write_tracks_info. destruct hits; [easy|]. rewrite E1. cbn [rbind]. rewrite E2. reflexivity. Qed.

Section Esmeralda.
  Context {K : Type}.
  Variable kdst_event : K -> Z.
  Variable nearest : list (Q * Q * Q) -> Q * Q * Q -> nat.
  Hypothesis griddata : takes_nearest nearest.
  Variable others : hit -> nat.
  Variables (round5 : Q -> Q) (paths : list voxel -> list voxel * (voxel -> voxel -> Q)) (norm : pos3 -> Q).
  Hypothesis paths_right : paths_ok paths.
  Hypothesis paths_sym : paths_metric paths.
  Hypothesis norm_pos : forall s, 0 <= norm s.
  Variables (m : list kbin) (dvs : list (option Q)) (method : norm_method) (xy : option region) (apply_z : bool).
  Hypothesis map_ok : usable_map m method xy.
  Hypothesis map_pos : forall b mu, In b m -> kb_mu b = Some mu -> 0 < mu.
  Hypothesis velocities : apply_z = true -> numbers dvs <> [].
  Variables (R th : Q) (sp : bool).
  Hypothesis th_pos : 0 < th.
  Variables (dims : Q * Q * Q) (strict : bool) (ethr : Q) (minv : nat) (blob : Q) (scan : option Q) (maxh : Z).
  Hypothesis dims_pos : positive_dims dims.
  Hypothesis blob_pos : 0 < blob.
  Hypothesis scan_pos : forall r, scan = Some r -> 0 <= r.

  Lemma velocity_one : exists dv, velocity dvs apply_z dv /\ forall hits, exists out, snd (correct nearest m dvs method xy false apply_z hits) = Ok out /\ Forall2 (corrected_hit m dv) hits out.
  Proof using griddata map_ok velocities.
    assert (D : exists dv, velocity dvs apply_z dv /\ dv = if apply_z then nanmedian dvs else None).
    { unfold velocity. destruct apply_z; [|now exists None]. destruct (nanmedian dvs) as [v|] eqn:N; [|exfalso; pose proof (nanmedian_is dvs) as X; rewrite N in X; now apply velocities].
      exists (Some v). split; [exists v; split; [reflexivity|now apply nanmedian_velocity]|reflexivity]. }
    destruct D as (dv & Hv & Ed). exists dv. split; [exact Hv|]. intros hits. destruct (inplace_ok nearest griddata m method xy hits map_ok) as (mid & E & F). unfold correct. rewrite E. subst dv. destruct apply_z.
    - destruct (nanmedian dvs) as [v|]; [|destruct Hv as (v & ? & _); discriminate]. eexists. split; [reflexivity|]. clear -F. induction F as [|h h' l l' C F IH]; constructor; [|exact IH].
      destruct C as (C1 & C2 & C3 & C4 & C5 & C6 & C7 & C8). unfold corrected_hit, with_z. cbn. rewrite C8. repeat split; assumption.
    - exists mid. split; [reflexivity|exact F].
  Qed.

  Lemma event_hits_left dv hits : (forall hits, exists out, snd (correct nearest m dvs method xy false apply_z hits) = Ok out /\ Forall2 (corrected_hit m dv) hits out) -> (forall h, In h hits -> 0 <= HitsSpec.val (hE h)) ->
    exists out, esmeralda_hits nearest m dvs method xy false apply_z R th sp hits = Ok out /\ hits_left m dv R th sp hits out.
  Proof using map_pos th_pos.
    intros C He. destruct (C hits) as (mid & E & F). unfold esmeralda_hits. rewrite E. cbn [rbind]. eexists. split; [reflexivity|]. change (drop_hits R mid) with (filter (EsmSpec.inside R) mid).
    assert (Em : forall h', In h' mid -> 0 <= HitsSpec.val (hE h') /\ 0 <= HitsSpec.val (hEc h')).
    { intros h' Hh. destruct (F2_in_right _ _ _ _ F Hh) as (h & I & Ch). apply (corrected_energies m dv h h' map_pos Ch). now apply He. }
    exists mid. split; [exact F|]. split; [|split].
    - rewrite threshold_merge_places by assumption. rewrite BuffersEvent.filter_filter. reflexivity.
    - intros h Hh. apply (thresholder_positive th sp (filter (EsmSpec.inside R) mid)); [assumption| |assumption]. intros g Hg. apply filter_In in Hg. now apply Em.
    - intros Hc. apply thresholder_energy; [assumption| |].
      + intros h' Hh. apply filter_In in Hh. now apply Em.
      + intros h' Hh. apply filter_In in Hh. destruct Hh as [Hh Ih]. destruct (F2_in_right _ _ _ _ F Hh) as (h & I & Ch). rewrite (corrected_inside m dv R h h' Ch) in Ih.
        destruct (Hc h I Ih) as (c & C1 & C2 & C3 & C4). destruct (F2_in_left _ _ _ _ F C1) as (c' & D1 & D). exists c'. split; [apply filter_In; split; [assumption|now rewrite (corrected_inside m dv R c c' D)]|].
        destruct Ch as (_ & Cp & _). destruct D as (_ & Dp & _ & _ & Dq & _). split; [now rewrite Dq|]. unfold eligible in *. rewrite Cp, Dp. assumption.
  Qed.

  Lemma seen_copied out : copy_Efield HEc (map (for_tracks others) out) = map (seen others) out.
  Proof using. unfold copy_Efield. rewrite map_map. reflexivity. Qed.
  Lemma energy_seen out : energy_in_map (map (seen others) out) == total hEc out.
  Proof using. unfold energy_in_map, total. rewrite sumF_map. reflexivity. Qed.

  Lemma event_tracks_written ev out : (forall h, In h out -> positive (hEc h)) ->
    exists w, write_tracks_info round5 paths norm dims strict ethr minv blob scan maxh HEc ev (map (for_tracks others) out) = Ok w /\ tracks_written others round5 maxh ev out w.
  Proof using paths_right paths_sym norm_pos dims_pos blob_pos scan_pos th_pos.
    intros P. destruct out as [|h0 rest] eqn:Eo; [eexists; split; [reflexivity|left; now split]|]. rewrite <- Eo in *. assert (Hne : out <> []) by (rewrite Eo; discriminate). clear Eo rest. 
    assert (P' : forall h e, In h (copy_Efield HEc (map (for_tracks others) out)) -> tEp h = Some e -> 0 < e).
    { rewrite seen_copied. intros h e Hh E. apply in_map_iff in Hh. destruct Hh as (g & <- & Hg). cbn in E. destruct (P g Hg) as (q & Eq & Hq). congruence. }
    destruct (Z.leb_spec (Z.of_nat (length out)) maxh) as [L|L].
    - destruct (C69_event_written round5 paths norm dims strict ethr minv blob scan maxh HEc ev (map (for_tracks others) out) paths_right paths_sym norm_pos blob_pos scan_pos dims_pos) as (w & s & E & W1 & W2 & W3 & W4 & W5 & W6 & W7 & W8 & W9 & W10 & W11).
      + now rewrite map_length.
      + exact P'.
      + rewrite seen_copied. destruct out as [|h l]; [easy|]. destruct (P h (or_introl eq_refl)) as (q & Eq & _). exists (seen others h), q. split; [now left|exact Eq].
      + exists w. split; [exact E|]. right. split; [exact Hne|]. split; [exact W1|]. split; [exact W5|]. exists s. rewrite seen_copied in *. rewrite map_length in W8.
        assert (O : s_oom s = false). { destruct W4 as (A & _). destruct (s_oom s); [|reflexivity]. destruct (proj1 A eq_refl) as (h & Hh & En). apply in_map_iff in Hh. destruct Hh as (g & <- & Hg). cbn in En. destruct (P g Hg) as (q & Eq & _). congruence. }
        rewrite O in *. apply Z.leb_le in L. rewrite L. rewrite energy_seen in W9. do 7 (split; [assumption|]). split; [reflexivity|]. split; assumption.
    - set (hits := map (for_tracks others) out) in *. assert (Hn : copy_Efield HEc hits <> []) by (unfold hits; rewrite seen_copied; intros C; apply map_eq_nil in C; contradiction).
      assert (Lh : length (copy_Efield HEc hits) = length out) by (unfold hits; now rewrite seen_copied, map_length).
      destruct (C68_too_many_hits round5 paths norm dims strict ethr minv blob scan maxh ev (copy_Efield HEc hits) Hn ltac:(lia)) as (out1 & E1 & L1 & N1).
      assert (PS : Permutation out1 (sort_hits out1)) by (symmetry; apply sort_by_perm).
      assert (At : forall o, In o (sort_hits out1) -> exists h, nth_error out (o_row o) = Some h /\ o_pos o = (hX h, hY h, hZ h) /\ o_ec o = hEc h /\ o_ep o = hEc h /\ o_track o = (-1)%Z).
      { intros o Ho. apply (Permutation_in _ (Permutation_sym PS)) in Ho. apply In_nth_error in Ho. destruct Ho as (i & Hi). destruct (nth_error (copy_Efield HEc hits) i) as [t|] eqn:Et; [|apply nth_error_None in Et; assert (i < length out1)%nat by (apply nth_error_Some; congruence); lia].
        rewrite (N1 i t Et) in Hi. injection Hi as <-. cbn [o_row o_pos o_ec o_ep o_track]. unfold hits in Et. rewrite seen_copied, nth_error_map in Et. destruct (nth_error out i) as [h|]; [|discriminate]. injection Et as <-. exists h. repeat split. }
      assert (Rw : Permutation (map o_row (sort_hits out1)) (seq 0 (length out))).
      { rewrite <- (Permutation_map o_row PS). assert (X : map o_row out1 = seq 0 (length out)); [|now rewrite X]. rewrite <- Lh, <- L1. clear -N1 L1. apply nth_ext with 0%nat 0%nat; [now rewrite map_length, seq_length|]. intros i Hi. rewrite map_length in Hi. rewrite seq_nth by lia.
        destruct (nth_error (copy_Efield HEc hits) i) as [t|] eqn:Et; [|apply nth_error_None in Et; lia]. specialize (N1 i t Et). erewrite (nth_error_nth (map o_row out1) i); [reflexivity|]. rewrite nth_error_map, N1. reflexivity. }
      assert (Ls : length (sort_hits out1) = length out) by (rewrite <- (Permutation_length PS); lia).
      assert (Sn : sort_hits out1 <> []) by (intros C; rewrite C in Ls; destruct out; [easy|discriminate]).
      destruct (C69_summary ev [] (sort_hits out1) true Sn) as (s & Es & B1 & B2 & B3 & B4 & B5 & B6 & B7 & B8).
      { intros o e Ho Eo. destruct (At o Ho) as (h & Eh & _ & Ec & _). apply nth_error_In in Eh. destruct (P h Eh) as (q & Eq & Hq). congruence. }
      eexists. split.
      { apply (written_some _ _ _ _ _ _ _ _ _ _ _ _ hits _ _ _ _ Hn E1 Es). }
      right. cbn [w_hits_passed w_summary w_topology w_hits w_tracks length Nat.eqb negb]. split; [exact Hne|]. split; [reflexivity|]. split; [apply sort_hits_sorted|]. exists s. split; [reflexivity|]. split; [exact B1|]. split; [lia|]. split; [exact B3|]. split.
      { rewrite B5. unfold total. assert (G : sumF TopoSummary.ec (sort_hits out1) == sumF (fun i => match nth_error out i with Some h => HitsSpec.val (hEc h) | None => 0 end) (map o_row (sort_hits out1))).
        { rewrite sumF_map. apply sumF_ext. intros o Ho. destruct (At o Ho) as (h & Eh & _ & Ec & _). unfold TopoSummary.ec. rewrite Ec, Eh. reflexivity. }
        rewrite G, (sumF_perm _ _ _ Rw). clear. assert (G : forall pre, sumF (fun i => match nth_error (pre ++ out) i with Some h => HitsSpec.val (hEc h) | None => 0 end) (seq (length pre) (length out)) == sumF (fun h => HitsSpec.val (hEc h)) out); [|exact (G [])].
        induction out as [|h l IH]; intros pre; [reflexivity|]. cbn [length seq]. rewrite !sumF_cons. rewrite nth_error_app2, Nat.sub_diag by lia. cbn [nth_error]. specialize (IH (pre ++ [h])). rewrite app_length in IH. cbn in IH. rewrite <- app_assoc in IH. cbn [app] in IH. replace (length pre + 1)%nat with (S (length pre)) in IH by lia. rewrite IH. reflexivity. }
      split; [exact B6|]. split.
      { apply B8. intros o Ho. destruct (At o Ho) as (h & Eh & _ & Ec & _). apply nth_error_In in Eh. destruct (P h Eh) as (q & Eq & _). congruence. }
      assert (F : (Z.of_nat (length out) <=? maxh)%Z = false) by (apply Z.leb_gt; lia). rewrite F. split; [exact B2|]. split; [reflexivity|]. split; [reflexivity|]. split; [exact Rw|exact At].
  Qed.

  Notation run := (esmeralda_run nearest others round5 paths norm m dvs method xy false apply_z R th sp dims strict ethr minv blob scan maxh).
  Definition grown dv (items : list (hitem (Z * hit) K)) (o o' : eout K) : Prop :=
    exists outs ws, Forall2 (fun it out => hits_left m dv R th sp (map snd (i_hits it)) out) items outs /\
      Forall2 (fun x w => tracks_written others round5 maxh (i_event (fst x)) (snd x) w) (combine items outs) ws /\
      eo_select o' = eo_select o ++ map (fun x => (i_event (fst x), negb (length (snd x) =? 0)%nat)) (combine items outs) /\
      eo_topology o' = eo_topology o ++ concat (map2 (fun it w => map (pair (i_event it)) (w_topology w)) items ws) /\
      eo_summary o' = eo_summary o ++ flat_map w_summary ws /\ eo_tracks o' = eo_tracks o ++ flat_map w_tracks ws /\
      eo_hits o' = eo_hits o ++ concat (map2 (fun x w => chits (i_event (fst x)) (snd x) w) (combine items outs) ws) /\
      eo_kdst o' = eo_kdst o ++ flat_map i_kdst items /\ eo_info o' = eo_info o ++ map (fun it => (i_run it, i_event it, i_time it)) items /\ eo_numbers o' = eo_numbers o ++ map i_event items /\
      eo_in o' = (eo_in o + length items)%nat /\ eo_out o' = (eo_out o + length items)%nat.

  Lemma run_grows : exists dv, velocity dvs apply_z dv /\ forall items o, (forall it h, In it items -> In h (i_hits it) -> 0 <= HitsSpec.val (hE (snd h))) -> exists o', run items o = Ok o' /\ grown dv items o o'.
  Proof using griddata paths_right paths_sym norm_pos map_ok map_pos velocities th_pos dims_pos blob_pos scan_pos.
    destruct velocity_one as (dv & Hv & C). exists dv. split; [exact Hv|]. induction items as [|it items IH]; intros o He.
    - exists o. split; [reflexivity|]. exists [], []. cbn. rewrite !app_nil_r, !Nat.add_0_r. repeat split; constructor.
    - destruct (event_hits_left dv (map snd (i_hits it)) C) as (out & E1 & L).
      { intros h Hh. apply in_map_iff in Hh. destruct Hh as ([e g] & <- & Hg). exact (He it (e, g) (or_introl eq_refl) Hg). }
      destruct (event_tracks_written (i_event it) out) as (w & E2 & W). { destruct L as (mid & _ & _ & P & _). exact P. }
      cbn [esmeralda_run]. rewrite E1. cbn [rbind]. rewrite E2. cbn [rbind].
      match goal with |- context [esmeralda_run _ _ _ _ _ _ _ _ _ _ _ _ _ _ _ _ _ _ _ _ _ items ?o1] => destruct (IH o1) as (o' & D & (outs & ws & G)); [intros; eapply He; [right|]; eassumption|] end.
      exists o'. split; [exact D|]. exists (out :: outs), (w :: ws). cbn [eo_select eo_topology eo_summary eo_hits eo_tracks eo_kdst eo_info eo_numbers eo_in eo_out] in G.
      destruct G as (F1 & F2 & G1 & G2 & G3 & G4 & G5 & G6 & G7 & G8 & G9 & G10). rewrite <- app_assoc in G1, G2, G3, G4, G5, G6, G7, G8. cbn [combine map map2 concat flat_map app fst snd length] in *.
      assert (Wp : w_hits_passed w = negb (length out =? 0)%nat). { destruct W as [(-> & ->)|(Hn & -> & _)]; [reflexivity|]. now destruct out. }
      rewrite Wp in G1. split; [now constructor|]. split; [now constructor|]. do 8 (split; [assumption|]). lia.
  Qed.

  Notation city := (esmeralda kdst_event nearest others round5 paths norm m dvs method xy false apply_z R th sp dims strict ethr minv blob scan maxh).
  Theorem C108_run files : (forall f, In f files -> well_formed kdst_event f) -> (forall f hits h, In f files -> f_hits f = Some hits -> In h hits -> 0 <= HitsSpec.val (hE (snd h))) ->
    exists o parts dv, city files = Ok o /\ Forall2 (read_of_file fst kdst_event) files parts /\ velocity dvs apply_z dv /\ tracks_file m dv R th sp others round5 maxh (concat parts) o.
  Proof using griddata paths_right paths_sym norm_pos map_ok map_pos velocities th_pos dims_pos blob_pos scan_pos.
    intros Wf He. destruct (C71_one_item_per_event fst kdst_event files Wf) as (parts & E & F). destruct run_grows as (dv & Hv & G).
    assert (Hi : forall it h, In it (concat parts) -> In h (i_hits it) -> 0 <= HitsSpec.val (hE (snd h))).
    { intros it h Hit Hh. apply in_concat in Hit. destruct Hit as (part & Hp & Hit). destruct (F2_in_r _ _ _ _ F Hp) as (f & Hf & [(_ & ->)|(hits & kdst & rn & events & Cp & F')]); [easy|].
      destruct (F2_in_r _ _ _ _ F' Hit) as (e & _ & (_ & _ & _ & Kp & _)). destruct Cp as (Eh & _). apply (He f hits h Hf Eh). clear -Kp Hh. revert Hh. induction Kp; intros Hh; [easy| |now right; auto]. destruct Hh as [->|Hh]; [now left|right; auto]. }
    destruct (G (concat parts) no_event_done Hi) as (o & D & (outs & ws & X)). exists o, parts, dv. unfold esmeralda. rewrite E, D. cbn [rbind]. split; [reflexivity|]. split; [exact F|]. split; [exact Hv|]. exists outs, ws.
    cbn [no_event_done eo_select eo_topology eo_summary eo_hits eo_tracks eo_kdst eo_info eo_numbers eo_in eo_out app Nat.add] in X. exact X.
  Qed.

  (** a file whose tables have different numbers of events ends the run *)
  Theorem C108_bad_file before f after hits kdst rn events : (forall g, In g before -> well_formed kdst_event g) -> (forall g hits h, In g before -> f_hits g = Some hits -> In h hits -> 0 <= HitsSpec.val (hE (snd h))) ->
    complete f hits kdst rn events -> (exists evs, NoDup evs /\ (forall e, In e evs <-> In e (map kdst_event kdst)) /\ length evs <> length events) ->
    city (before ++ f :: after) = Err ConfigModel.InvalidInputFileStructure.
  Proof using griddata paths_right paths_sym norm_pos map_ok map_pos velocities th_pos dims_pos blob_pos scan_pos.
    intros Wf He Cp X. destruct (C71_numbers_differ fst kdst_event before f after hits kdst rn events Wf Cp X) as (parts & E & F). destruct run_grows as (dv & Hv & G).
    assert (Hi : forall it h, In it (concat parts) -> In h (i_hits it) -> 0 <= HitsSpec.val (hE (snd h))).
    { intros it h Hit Hh. apply in_concat in Hit. destruct Hit as (part & Hp & Hit). destruct (F2_in_r _ _ _ _ F Hp) as (g & Hg & [(_ & ->)|(hits' & kdst' & rn' & events' & Cp' & F')]); [easy|].
      destruct (F2_in_r _ _ _ _ F' Hit) as (e & _ & (_ & _ & _ & Kp & _)). destruct Cp' as (Eh & _). apply (He g hits' h Hg Eh). clear -Kp Hh. revert Hh. induction Kp; intros Hh; [easy| |now right; auto]. destruct Hh as [->|Hh]; [now left|right; auto]. }
    destruct (G (concat parts) no_event_done Hi) as (o & D & _). unfold esmeralda. rewrite E, D. reflexivity.
  Qed.
End Esmeralda.
(** with the correction in time, a run with an event does not end well *)
Theorem C108_temp {K} kdst_event nearest others round5 paths norm m dvs method xy apply_z R th sp dims strict ethr minv blob scan maxh (files : list (hfile (Z * hit) K)) it items e :
  hits_and_kdst_from_files fst kdst_event files = (it :: items, e) ->
  forall o, esmeralda kdst_event nearest others round5 paths norm m dvs method xy true apply_z R th sp dims strict ethr minv blob scan maxh files <> Ok o.
Proof.
  intros E o. unfold esmeralda. rewrite E. cbn [esmeralda_run]. unfold esmeralda_hits. pose proof (proj1 (C80_temp nearest m dvs method xy apply_z (map snd (i_hits it)))) as T.
  destruct (snd (correct nearest m dvs method xy true apply_z (map snd (i_hits it)))) as [out|x]; [now specialize (T out)|discriminate].
Qed.

(** two files, the second without hits. Of the events of the first, one keeps one hit of four, and one has no hits. *)
Definition esm_file (hits : option (list (Z * hit))) : hfile (Z * hit) Z := {| f_hits := hits; f_kdst := Some [7%Z; 7%Z; 9%Z]; f_runs := Some [5%Z; 5%Z]; f_events := Some [(7%Z, 1); (9%Z, 2)] |}.
Definition esm_files : list (hfile (Z * hit) Z) := [esm_file (Some (map (pair 7%Z) hits_ex)); esm_file None].
Lemma C108_hypotheses : (forall f, In f esm_files -> well_formed (fun k => k) f) /\ (forall f hits h, In f esm_files -> f_hits f = Some hits -> In h hits -> 0 <= HitsSpec.val (hE (snd h))).
Proof.
  split.
  - intros f [<-|[<-|[]]]; [right|left; now left]. eexists _, _, _, _. split; [split; [reflexivity|]; split; [reflexivity|]; split; [reflexivity|eexists; reflexivity]|].
    intros evs N H. assert (P : Permutation evs [7%Z; 9%Z]); [|exact (Permutation_length P)]. apply NoDup_Permutation; [exact N|repeat constructor; cbn; intuition discriminate|]. intros x. rewrite H. cbn. tauto.
  - intros f hits h [<-|[<-|[]]] E Hh; [|discriminate]. injection E as <-. change (In h (map (pair 7%Z) hits_ex)) in Hh. apply in_map_iff in Hh. destruct Hh as (g & <- & Hg). now apply C80_hypotheses.
Qed.
Example C108_example :
  match esmeralda (fun k => k) first_nearest (fun _ => 0%nat) (fun x => x) unit_paths (fun _ => 1) map_ex [Some 2] Maximum None false true 50 10 true (1, 1, 1) true 0 1 1 None 10 esm_files with
  | Ok o => eo_select o = [(7%Z, true); (9%Z, false)] /\ eo_topology o = [(7%Z, true)] /\ map (fun s => (s_event s, s_nhits s, s_ntrks s)) (eo_summary o) = [(7%Z, 1%nat, 1%nat)] /\
            map (fun r => (c_number r, hQ (c_hit r))) (eo_hits o) = [(7%Z, 20)] /\ length (eo_tracks o) = 1%nat /\ eo_kdst o = [7%Z; 7%Z; 9%Z] /\ eo_in o = 2%nat
  | Err _ => False
  end.
Proof. vm_compute. repeat split. Qed.
Print Assumptions C108_run.
Print Assumptions C108_bad_file.
Print Assumptions C108_temp.
