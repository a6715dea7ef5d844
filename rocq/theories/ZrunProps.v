(** C116: the tables of a run of zemrude *)
From Verif Require Import FiltersSpec.
From Verif Require Import Base Arrays PeaksModel PeaksProofs BuffersProofs WfmModel WfmProps XyProps PmapioProofs KrProps DbModel DbProps CorrModel CorrSpec CorrProps CorrMore KmapModel KmapSpec KmapProps KmapGrid ZemModel ZemProps TevModel TevSpec TevProps ZrunModel ZrunSpec ZrunProofs.
Local Open Scope Q_scope.

Lemma created_map std over_sqrt fit xy0 xy1 dt0 dt1 n nz s0 s1 name nbins min_events df rows : create_selfmap std over_sqrt fit xy0 xy1 dt0 dt1 n nz s0 s1 name nbins min_events df = Ok rows ->
  (0 < n)%nat /\ (0 < nz)%nat /\ exists f, compute_3D_map f xy0 xy1 dt0 dt1 n nz s0 s1 df = Ok rows /\ forall l, nevents (f l) = Some (qn (length l)).
Proof.
  assert (Z : forall f, compute_3D_map f xy0 xy1 dt0 dt1 n nz s0 s1 df = Ok rows -> (0 < n)%nat /\ (0 < nz)%nat) by (intros f; unfold compute_3D_map; destruct (Nat.eqb_spec nz 0), (Nat.eqb_spec n 0); cbn [orb]; try discriminate; lia).
  destruct name; cbn [create_selfmap]; intros H; [| |discriminate]; destruct (Z _ H) as [A B]; (split; [exact A|]; split; [exact B|]); eexists; (split; [exact H|]); intros l; [apply fit_counts|reflexivity].
Qed.
Lemma binned_counts c df : how_many (in_map_range c) df (length (flat_map (binned (z_xy0 c) (z_xy1 c) (z_dt0 c) (z_dt1 c) (z_n c) (z_nz c) (z_s0 c) (z_s1 c)) df)).
Proof.
  induction df as [|e df IH]; [constructor|]. cbn [flat_map]. rewrite app_length. unfold binned at 1.
  assert (No : forall m, how_many (in_map_range c) df m -> ~ in_map_range c e -> how_many (in_map_range c) (e :: df) m) by (intros; now constructor).
  destruct (kX e) as [x|] eqn:Ex; [|apply No; [exact IH|]; intros (x & y & t & s & E & _); congruence]. destruct (kY e) as [y|] eqn:Ey; [|apply No; [exact IH|]; intros (x' & y & t & s & _ & E & _); congruence].
  destruct (kDT e) as [t|] eqn:Et; [|apply No; [exact IH|]; intros (x' & y' & t & s & _ & _ & E & _); congruence]. destruct (kS2e e) as [s|] eqn:Es; [|apply No; [exact IH|]; intros (x' & y' & t' & s & _ & _ & _ & E & _); congruence].
  destruct (in_range x _ _ && in_range y _ _ && in_range t _ _ && in_range s _ _) eqn:R.
  - rewrite !andb_true_iff, !in_range_iff in R. cbn [length Nat.add]. constructor; [|exact IH]. exists x, y, t, s. tauto.
  - apply No; [exact IH|]. intros (x' & y' & t' & s' & E1 & E2 & E3 & E4 & H). assert (R' : in_range x (z_xy0 c) (z_xy1 c) && in_range y (z_xy0 c) (z_xy1 c) && in_range t (z_dt0 c) (z_dt1 c) && in_range s (z_s0 c) (z_s1 c) = true).
    { rewrite !andb_true_iff, !in_range_iff. replace x' with x in H by congruence. replace y' with y in H by congruence. replace t' with t in H by congruence. replace s' with s in H by congruence. tauto. }
    congruence.
Qed.
Lemma how_many_map {A B} (f : A -> B) (P : B -> Prop) l n : how_many P (map f l) n -> how_many (fun a => P (f a)) l n.
Proof. revert n. induction l as [|a l IH]; intros n H; inversion H; subst; constructor; auto. Qed.
Lemma different_all l n : NoDup l -> different l n -> n = List.length l.
Proof. intros N (u & Nu & I & <-). apply Permutation_length. now apply NoDup_Permutation. Qed.
Lemma counts_add parts rows : NoDup (map te_event (concat parts)) -> Forall2 counts_of parts rows -> total_events rows = length (concat parts).
Proof.
  intros N F. induction F as [|s r parts rows C F IH]; [reflexivity|]. cbn [concat] in *. rewrite map_app in N. rewrite app_length. cbn [total_events fold_right]. fold (total_events rows). rewrite IH by (clear -N; induction (map te_event s) as [|x l IHl]; [exact N|inversion N; auto]).
  destruct C as (D & _). apply different_all in D; [now rewrite D, map_length|]. clear -N. induction (map te_event s) as [|x l IHl]; [constructor|]. cbn [app] in N. inversion N as [|? ? Nx Nl]; subst. constructor; [intros K; apply Nx, in_or_app; now left|now apply IHl].
Qed.

Section Run.
  Variable sqrt : Q -> Q.
  Variables root2pi fwhm : Q.
  Variables std std0 : list Q -> val.
  Variable over_sqrt : val -> nat -> val.
  Variable fit_bin : list Q -> nat -> option (val * val * val * val).
  Variable fit_expo : list Q -> list Q -> val -> result (Q * Q * (val * val)).
  Variable fit_gauss : list Q -> list nat -> Q * Q * Q -> option (list Q) -> result ((Q * Q * Q) * (val * val * val) * val).
  Variable fit_sigmoid : list Q -> list nat -> nat * Q * Q * nat -> list Q -> result (Q * val).
  Variable nearest : list (Q * Q * Q) -> Q * Q * Q -> nat.
  Hypothesis griddata : takes_nearest nearest.
  Notation zemrude := (zemrude sqrt root2pi fwhm std std0 over_sqrt fit_bin fit_expo fit_gauss fit_sigmoid nearest).
  Notation time_evol := (get_time_evol sqrt root2pi fwhm std std0 fit_expo fit_gauss fit_sigmoid).

  Lemma zemrude_inv c pre files out : zemrude c pre files = Ok out -> exists run ecs sel ec2,
    (exists f fs, files = f :: fs /\ zf_run f = Some run) /\ (forall f, In f files -> zf_rows f <> None) /\
    apply_map nearest c pre (all_rows files) = Ok ecs /\
    select_rows (combine (all_rows files) ecs) (z_low c) (z_upp c) (z_lx c) (z_hx c) (z_ls c) (z_hs c) (z_rmax c) (z_ld c) (z_hd c) (z_ln c) (z_hn c) = Ok (sel, zo_eff out) /\
    create_selfmap std over_sqrt fit_bin (z_xy0 c) (z_xy1 c) (z_dt0 c) (z_dt1 c) (z_n c) (z_nz c) (z_s0 c) (z_s1 c) (z_fit c) (z_nbins c) (z_min_events c) (map (fun r => dr_kr (fst r)) sel) = Ok (zo_map out) /\
    apply_selfmap nearest (z_method c) (z_xy c) (Some keV) (map (fun r => dr_kr (fst r)) sel) (zo_map out) = Ok ec2 /\
    time_evol (z_hours c * 3600) run (z_x0 c) (z_y0 c) (z_shape c) (z_size c) (z_dtbins c) (z_s1lo c) (z_s1hi c) (z_bins c) (z_error c) (map trow_of (combine sel ec2)) = Ok (zo_evol out) /\
    zo_meta out = compute_metadata sel (zo_map out) (z_xy0 c) (z_xy1 c) (z_dt0 c) (z_dt1 c) (z_n c) (z_nz c).
  Proof.
    unfold ZrunModel.zemrude. intros H. assert (H' : rbind (source files) (fun '(df, run) => rbind (apply_map nearest c pre df) (fun ec => rbind (select_rows (combine df ec) (z_low c) (z_upp c) (z_lx c) (z_hx c) (z_ls c) (z_hs c) (z_rmax c) (z_ld c) (z_hd c) (z_ln c) (z_hn c)) (fun '(sel, eff) =>
      rbind (create_selfmap std over_sqrt fit_bin (z_xy0 c) (z_xy1 c) (z_dt0 c) (z_dt1 c) (z_n c) (z_nz c) (z_s0 c) (z_s1 c) (z_fit c) (z_nbins c) (z_min_events c) (map (fun r => dr_kr (fst r)) sel)) (fun krmap =>
      rbind (apply_selfmap nearest (z_method c) (z_xy c) (Some keV) (map (fun r => dr_kr (fst r)) sel) krmap) (fun ec2 =>
      rbind (time_evol (z_hours c * 3600) run (z_x0 c) (z_y0 c) (z_shape c) (z_size c) (z_dtbins c) (z_s1lo c) (z_s1hi c) (z_bins c) (z_error c) (map trow_of (combine sel ec2))) (fun evol =>
      Ok {| zo_map := krmap; zo_evol := evol; zo_eff := eff; zo_meta := compute_metadata sel krmap (z_xy0 c) (z_xy1 c) (z_dt0 c) (z_dt1 c) (z_n c) (z_nz c) |})))))) = Ok out) by (destruct (z_fit c); [exact H|exact H|discriminate]). clear H.
    unfold source in H'. destruct (load_dsts files) as [df|] eqn:L; [|discriminate]. cbn [rbind] in H'. apply load_dsts_inv in L. destruct L as (N & -> & T). destruct files as [|f fs]; [contradiction|]. destruct f as [rf [run|]] eqn:Ef; [|discriminate]. rewrite <- Ef in *. cbn [rbind] in H'.
    destruct (apply_map _ _ _ _) as [ecs|] eqn:E1; [|discriminate]. cbn [rbind] in H'. destruct (select_rows _ _ _ _ _ _ _ _ _ _ _ _) as [[sel eff]|] eqn:E2; [|discriminate]. cbn [rbind] in H'. destruct (create_selfmap _ _ _ _ _ _ _ _ _ _ _ _ _ _ _) as [krmap|] eqn:E3; [|discriminate]. cbn [rbind] in H'.
    destruct (apply_selfmap _ _ _ _ _ _) as [ec2|] eqn:E4; [|discriminate]. cbn [rbind] in H'. destruct (get_time_evol _ _ _ _ _ _ _ _ _ _ _ _ _ _ _ _ _ _ _ _) as [evol|] eqn:E5; [|discriminate]. cbn [rbind] in H'. injection H' as <-. exists run, ecs, sel, ec2. cbn [zo_map zo_evol zo_eff zo_meta].
    split; [exists f, fs; split; [reflexivity|now rewrite Ef]|]. auto 10.
  Qed.

  (** A run that finishes. The rows of all the files get their energy over that of the nearest bin of the preliminary map; those that pass the cuts, and are alone in their event, are selected.
      The efficiencies, the map and the time evolution then speak of the same events: their numbers agree. *)
  Theorem C116_zemrude c pre files out : 0 < z_hours c -> zemrude c pre files = Ok out ->
    exists run ecs flags sel ec2s, (exists f fs, files = f :: fs /\ zf_run f = Some run) /\ (forall f, In f files -> zf_rows f <> None) /\
      Forall2 (fun d ec => corrected_with pre (dr_kr d) ec) (all_rows files) ecs /\
      picked flags (combine (all_rows files) ecs) sel /\ (forall i, nth i flags false = true <-> passes c (combine (all_rows files) ecs) i) /\
      NoDup (map (fun r => dr_event (fst r)) sel) /\
      (exists n, different (map dr_event (all_rows files)) n /\ eff_total (zo_eff out) * qn n == qn (length sel)) /\
      total_events (zo_evol out) = length sel /\
      (exists n, how_many (fun r => in_map_range c (dr_kr (fst r))) sel n /\ events_in_map (zo_map out) == qn n) /\
      Forall2 (fun r ec => corrected_with (map bin_of_row (zo_map out)) (dr_kr (fst r)) ec) sel ec2s /\
      exists evs t0 ks parts, Forall2 (fun x e => row_with (fst x) (snd x) e) (combine sel ec2s) evs /\ is_least (times evs) t0 /\ StronglySorted lt ks /\ Permutation (concat parts) evs /\
        Forall2 (fun k s => s <> [] /\ forall e, In e s <-> In e evs /\ slice_number t0 (z_hours c * 3600) (te e) k) ks parts /\
        Forall2 (fun s r => v_run r = run /\ counts_of s r /\ averages_of s (z_s1lo c) (z_s1hi c) r /\ lifetime_of fit_expo (inside (z_x0 c) (z_y0 c) (z_shape c) (z_size c)) s r /\
          energy_of (gauss_centre root2pi fit_gauss (z_bins c) (map te_Ec s)) (map te_Ec s) (v_ec r) /\ energy_of (gauss_centre root2pi fit_gauss (z_bins c) (map te_Ec2 s)) (map te_Ec2 s) (v_ec2 r)) parts (zo_evol out).
  Proof using griddata.
    intros Hh H. destruct (zemrude_inv _ _ _ _ H) as (run & ecs & sel & ec2 & Hf & Ht & E1 & E2 & E3 & E4 & E5 & _). clear H.
    apply (applied_rows nearest griddata) in E1. destruct (select_rows_inv _ _ _ _ _ _ _ _ _ _ _ _ _ _ E2) as [S1 S2]. rewrite w7_eq in S1.
    exists run, ecs, (map (chosen c (combine (all_rows files) ecs)) (combine (all_rows files) ecs)), sel, ec2. split; [exact Hf|]. split; [exact Ht|]. split; [exact E1|].
    split; [rewrite S1; apply picked_filter|]. split; [intros i; apply flags_spec|]. assert (Nd : NoDup (map (fun r => dr_event (fst r)) sel)) by (rewrite S1; apply chosen_nodup). split; [exact Nd|].
    split.
    { destruct (C39_product _ _ _ _ _ _ _ _ _ _ _ _ _ _ S2) as [_ (evb & eva & (B1 & B2) & (A1 & A2) & _ & _ & E)]. exists (length evb). split.
      - exists evb. split; [exact B1|]. split; [|reflexivity]. intros z. rewrite B2, in_map_iff. assert (C : map fst (combine (all_rows files) ecs) = all_rows files) by (apply Forall2_len in E1; clear -E1; revert ecs E1; induction (all_rows files) as [|d l IH]; intros [|ec ecs] L; try discriminate; [reflexivity|cbn; f_equal; apply IH; cbn in L; lia]).
        split.
        + intros (r & Hr & Ez). apply in_map_iff in Hr. destruct Hr as (x & <- & Hx). exists (fst x). split; [exact Ez|]. rewrite <- C. now apply in_map.
        + intros (d & Ez & Hd). rewrite <- C in Hd. apply in_map_iff in Hd. destruct Hd as (x & <- & Hx). exists (view x). split; [now apply in_map|exact Ez].
      - rewrite E. f_equal. assert (P : Permutation eva (map (fun r => dr_event (fst r)) sel)).
        { apply NoDup_Permutation; [exact A1|exact Nd|]. intros z. rewrite A2, in_map_iff. split; [intros (r & Hr & Ez); apply in_map_iff in Hr; destruct Hr as (x & <- & Hx); now exists x|intros (x & Ez & Hx); exists (view x); split; [now apply in_map|exact Ez]]. }
        apply Permutation_length in P. now rewrite P, map_length. }
    unfold apply_selfmap in E4. apply (applied_with nearest griddata) in E4. assert (L2 : length ec2 = length sel) by (apply Forall2_len in E4; rewrite map_length in E4; now symmetry).
    assert (Hlen : 0 < z_hours c * 3600) by lra. destruct (C99_rows _ _ _ _ _ _ _ _ _ _ _ _ _ _ _ _ _ _ _ _ _ Hlen E5) as (t0 & ks & parts & T & Sk & P & F1 & F2).
    assert (Ev : map te_event (map trow_of (combine sel ec2)) = map (fun r => dr_event (fst r)) sel) by (clear -L2; revert ec2 L2; induction sel as [|[d ec] sel IH]; intros [|e2 ec2] L; try discriminate; [reflexivity|cbn; f_equal; apply IH; cbn in L; lia]).
    split.
    { rewrite (counts_add parts).
      - rewrite (Permutation_length P), map_length, combine_length, L2. apply Nat.min_id.
      - eapply Permutation_NoDup; [symmetry; apply Permutation_map, P|]. rewrite Ev. exact Nd.
      - clear -F2. induction F2 as [|s r parts rows (_ & C & _) F IH]; constructor; assumption. }
    split.
    { eexists. split; [apply how_many_map, binned_counts|]. destruct (created_map _ _ _ _ _ _ _ _ _ _ _ _ _ _ _ _ E3) as (Hn & Hz & f & M & C). exact (map_counts f _ _ _ _ _ _ _ _ _ _ (fun l _ => C l) Hn Hz M). }
    split; [clear -E4; revert ec2 E4; induction sel as [|x sel IH]; intros ec2 F; inversion F; subst; constructor; auto|].
    exists (map trow_of (combine sel ec2)), t0, ks, parts. split; [|auto]. clear. induction (combine sel ec2) as [|[[d ec] e2] l IH]; constructor; [|exact IH]. unfold row_with. cbn. auto 10.
  Qed.

  (** Only the rows count, not how they are split in files; the run number is that of the first file. *)
  Theorem C116_split c pre files run : (exists f fs, files = f :: fs /\ zf_run f = Some run) -> (forall f, In f files -> zf_rows f <> None) ->
    zemrude c pre files = zemrude c pre [{| zf_rows := Some (all_rows files); zf_run := Some run |}].
  Proof.
    intros (f & fs & E & R) T. assert (S : source files = Ok (all_rows files, run)).
    { unfold source. rewrite (load_dsts_ok files); [|rewrite E; discriminate|exact T]. cbn [rbind]. rewrite E. destruct f as [rf rn]. cbn in R. now rewrite R. }
    unfold ZrunModel.zemrude. rewrite S. assert (S' : source [{| zf_rows := Some (all_rows files); zf_run := Some run |}] = Ok (all_rows files, run)) by (cbn; now rewrite app_nil_r). now rewrite S'.
  Qed.
End Run.
Print Assumptions C116_zemrude.
Print Assumptions C116_split.
