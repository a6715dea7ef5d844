(** Lemmas for C116 *)
From Verif Require Import FiltersSpec.
From Verif Require Import Base Arrays PeaksModel PeaksProofs BuffersProofs WfmModel WfmProps XyProps PmapioProofs KrProps DbModel DbProps CorrModel CorrSpec CorrProps CorrMore KmapModel KmapSpec KmapProps KmapGrid ZemModel ZemProps TevModel TevSpec TevProps ZrunModel ZrunSpec.
Local Open Scope Q_scope.

(** ---- the source ---- *)
Lemma load_dsts_inv files df : load_dsts files = Ok df -> files <> [] /\ df = all_rows files /\ forall f, In f files -> zf_rows f <> None.
Proof.
  unfold load_dsts. destruct files as [|f0 fs]; [discriminate|]. set (files := f0 :: fs). assert (N : files <> []) by discriminate. clearbody files. intros H. split; [exact N|]. clear N.
  destruct (rmap _ files) as [ts|] eqn:E; [|discriminate]. cbn [rbind] in H. injection H as <-. revert ts E. induction files as [|f files IH]; intros ts E; cbn [rmap] in E.
  - injection E as <-. split; [reflexivity|intros f []].
  - destruct (zf_rows f) as [t|] eqn:Ef; [|discriminate]. destruct (rmap _ files) as [ts'|]; [|discriminate]. injection E as <-. destruct (IH ts' eq_refl) as [A B]. split; [cbn [List.concat all_rows flat_map]; rewrite Ef; f_equal; exact A|]. intros g [<-|Hg]; [congruence|now apply B].
Qed.
Lemma load_dsts_ok files : files <> [] -> (forall f, In f files -> zf_rows f <> None) -> load_dsts files = Ok (all_rows files).
Proof.
  intros N H. unfold load_dsts. destruct files as [|f0 fs]; [contradiction|]. set (files := f0 :: fs) in *. clearbody files. clear N. assert (E : exists ts, rmap (fun f => match zf_rows f with Some t => Ok t | None => Err (Other 36) end) files = Ok ts /\ List.concat ts = all_rows files).
  { induction files as [|f files IH]; [exists []; now split|]. destruct IH as (ts & E & C); [intros g Hg; apply H; now right|]. destruct (zf_rows f) as [t|] eqn:Ef; [|exfalso; apply (H f); [now left|exact Ef]]. exists (t :: ts). cbn [rmap]. rewrite Ef, E. split; [reflexivity|]. cbn [List.concat all_rows flat_map]. rewrite Ef. f_equal. exact C. }
  destruct E as (ts & E & C). rewrite E. cbn [rbind]. now rewrite C.
Qed.

(** ---- selections over whole rows ---- *)
Lemma filter_view p l : map view (filter (fun r => p (view r)) l) = filter p (map view l).
Proof. symmetry. apply filter_map_swap. Qed.
Definition on_rows (p : krow -> bool) (r : drow * val) : bool := p (view r).
Section Sel.
  Variables (low upp : Q -> Q) (lx hx ls hs rmax ld hd ln hn : Q) (kdst : list (drow * val)).
  Notation run := (select_rows kdst low upp lx hx ls hs rmax ld hd ln hn).
  Definition w1 := filter (on_rows (b1 low upp)) kdst.
  Definition w2 := filter (on_rows (b2 lx hx)) w1.
  Definition w3 := filter (on_rows (b3 ls hs)) w2.
  Definition w4 := filter (on_rows (alone (map view w3))) w3.
  Definition w5 := filter (on_rows (b5 rmax)) w4.
  Definition w6 := filter (on_rows (b6 ld hd)) w5.
  Definition w7 := filter (on_rows (b7 ln hn)) w6.
  Lemma alone_rows l r : (length (filter (fun r' => (k_event (view r') =? k_event (view r))%Z) l) =? 1)%nat = alone (map view l) (view r).
  Proof. unfold alone. f_equal. rewrite <- (map_length view). f_equal. apply (filter_view (fun r' => (k_event r' =? k_event (view r))%Z)). Qed.
  Lemma select_one_eq l : select_one l = rbind (eff_of_selection (map view l) (map view (filter (on_rows (alone (map view l))) l))) (fun e => Ok (filter (on_rows (alone (map view l))) l, e)).
  Proof. unfold select_one. assert (E : filter (fun r => (length (filter (fun r' => (k_event (view r') =? k_event (view r))%Z) l) =? 1)%nat) l = filter (on_rows (alone (map view l))) l) by (apply filter_ext; intros r; apply alone_rows). now rewrite E. Qed.
  Lemma select_var_eq l col lo hi : select_var l col lo hi = rbind (eff_of_selection (map view l) (map view (filter (on_rows (cut col lo hi)) l))) (fun e => Ok (filter (on_rows (cut col lo hi)) l, e)).
  Proof. reflexivity. Qed.
  Lemma views : map view w7 = d7 low upp lx hx ls hs rmax ld hd ln hn (map view kdst).
  Proof.
    assert (F : forall p l, map view (filter (on_rows p) l) = filter p (map view l)) by (intros; apply filter_view).
    unfold w7, w6, w5, w4. rewrite !F. unfold w3, w2, w1. rewrite !F. reflexivity.
  Qed.
  Lemma select_rows_inv sel eff : run = Ok (sel, eff) -> sel = w7 /\ apply_selections (map view kdst) low upp lx hx ls hs rmax ld hd ln hn = Ok (map view sel, eff).
  Proof.
    intros H. assert (F : forall p l, map view (filter (on_rows p) l) = filter p (map view l)) by (intros; apply filter_view).
    revert H. unfold select_rows, apply_selections.
    rewrite select_var_eq, select_unfold. fold (b1 low upp). rewrite F. destruct (eff_of_selection (map view kdst) _) as [e1|]; [|discriminate]. cbn [rbind]. fold w1. rewrite <- F. fold w1.
    rewrite select_var_eq, select_unfold. fold (b2 lx hx). rewrite F. destruct (eff_of_selection (map view w1) _) as [e2|]; [|discriminate]. cbn [rbind]. fold w2. rewrite <- F. fold w2.
    rewrite select_var_eq, select_unfold. fold (b3 ls hs). rewrite F. destruct (eff_of_selection (map view w2) _) as [e3|]; [|discriminate]. cbn [rbind]. fold w3. rewrite <- F. fold w3.
    rewrite select_one_eq. unfold select_1S1_1S2. change (fun r => (length (filter (fun r' => (k_event r' =? k_event r)%Z) (map view w3)) =? 1)%nat) with (alone (map view w3)). fold w4. rewrite <- F. fold w4. destruct (eff_of_selection (map view w3) _) as [e4|]; [|discriminate]. cbn [rbind].
    rewrite select_var_eq, select_unfold. fold (b5 rmax). rewrite F. destruct (eff_of_selection (map view w4) _) as [e5|]; [|discriminate]. cbn [rbind]. fold w5. rewrite <- F. fold w5.
    rewrite select_var_eq, select_unfold. fold (b6 ld hd). rewrite F. destruct (eff_of_selection (map view w5) _) as [e6|]; [|discriminate]. cbn [rbind]. fold w6. rewrite <- F. fold w6.
    rewrite select_var_eq, select_unfold. fold (b7 ln hn). rewrite F. destruct (eff_of_selection (map view w6) _) as [e7|]; [|discriminate]. cbn [rbind]. fold w7. rewrite <- F. fold w7.
    destruct (eff_of_selection (map view kdst) _) as [t|]; [|discriminate]. cbn [rbind]. intros H. injection H as <- <-. now split.
  Qed.
End Sel.

(** the rows selected, by their positions *)
Lemma picked_filter {A} (p : A -> bool) l : picked (map p l) l (filter p l).
Proof. induction l as [|a l IH]; [constructor|]. cbn [map filter]. destruct (p a); now constructor. Qed.
Lemma filters_and {A} (p q : A -> bool) l : filter q (filter p l) = filter (fun a => p a && q a) l.
Proof. apply filter_filter'. Qed.
Lemma count_zero {A} (p : A -> bool) l : (forall j b, nth_error l j = Some b -> p b = false) -> length (filter p l) = 0%nat.
Proof. induction l as [|a l IH]; intros H; [reflexivity|]. cbn [filter]. rewrite (H 0%nat a eq_refl). apply IH. intros j b E. exact (H (S j) b E). Qed.
Lemma count_one {A} (p : A -> bool) l i a : nth_error l i = Some a -> p a = true -> (length (filter p l) = 1%nat <-> forall j b, nth_error l j = Some b -> p b = true -> j = i).
Proof.
  revert i. induction l as [|x l IH]; intros i E P; [destruct i; discriminate|]. destruct i as [|i].
  - injection E as ->. cbn [filter]. rewrite P. cbn [length]. split.
    + intros L j b Ej Pb. destruct j as [|j]; [reflexivity|]. exfalso. cbn in Ej. assert (I : In b (filter p l)) by (apply filter_In; split; [eapply nth_error_In; eassumption|assumption]). destruct (filter p l); [destruct I|discriminate].
    + intros H. f_equal. apply count_zero. intros j b Ej. destruct (p b) eqn:Pb; [|reflexivity]. discriminate (H (S j) b Ej Pb).
  - cbn [filter]. cbn in E. split.
    + intros L j b Ej Pb. destruct (p x) eqn:Px.
      * exfalso. cbn [length] in L. assert (I : In a (filter p l)) by (apply filter_In; split; [eapply nth_error_In; eassumption|assumption]). destruct (filter p l); [destruct I|discriminate].
      * destruct j as [|j]; [injection Ej as ->; congruence|]. f_equal. exact (proj1 (IH i E P) L j b Ej Pb).
    + intros H. destruct (p x) eqn:Px; [discriminate (H 0%nat x eq_refl Px)|]. apply (IH i E P). intros j b Ej Pb. specialize (H (S j) b Ej Pb). lia.
Qed.

Section Positions.
  Variable c : zconf.
  Variable rows : list (drow * val).
  Notation W3 := (w3 (z_low c) (z_upp c) (z_lx c) (z_hx c) (z_ls c) (z_hs c) rows).
  Definition early_b (r : drow * val) : bool := on_rows (b1 (z_low c) (z_upp c)) r && (on_rows (b2 (z_lx c) (z_hx c)) r && on_rows (b3 (z_ls c) (z_hs c)) r).
  Lemma early_spec d ec : early_b (d, ec) = true <-> early c d ec.
  Proof.
    unfold early_b, on_rows. rewrite !andb_true_iff, cut_band. unfold b2, b3. rewrite !cut_within. unfold early, in_band, view. cbn [k_zrms k_dt k_ec k_s2t fst snd]. tauto.
  Qed.
  Lemma w3_eq : W3 = filter early_b rows.
  Proof. unfold w3, w2, w1. rewrite !filters_and. apply filter_ext. intros r. unfold early_b. now rewrite andb_assoc. Qed.
  Definition chosen (r : drow * val) : bool := early_b r && on_rows (alone (map view W3)) r && on_rows (b5 (z_rmax c)) r && on_rows (b6 (z_ld c) (z_hd c)) r && on_rows (b7 (z_ln c) (z_hn c)) r.
  Lemma w7_eq : w7 (z_low c) (z_upp c) (z_lx c) (z_hx c) (z_ls c) (z_hs c) (z_rmax c) (z_ld c) (z_hd c) (z_ln c) (z_hn c) rows = filter chosen rows.
  Proof. unfold w7, w6, w5, w4. rewrite w3_eq at 2. rewrite !filters_and. apply filter_ext. intros r. unfold chosen. now rewrite !andb_assoc. Qed.
  Lemma alone_spec i d ec : nth_error rows i = Some (d, ec) -> early_b (d, ec) = true ->
    on_rows (alone (map view W3)) (d, ec) = true <-> (forall j d' ec', nth_error rows j = Some (d', ec') -> dr_event d' = dr_event d -> early c d' ec' -> j = i).
  Proof.
    intros E B. unfold on_rows. rewrite <- alone_rows, w3_eq, filters_and, Nat.eqb_eq.
    rewrite (count_one (fun a => early_b a && (k_event (view a) =? k_event (view (d, ec)))%Z) rows i (d, ec) E); [|rewrite B; cbn; apply Z.eqb_refl].
    split.
    - intros H j d' ec' Ej Ev Er. apply (H j (d', ec') Ej). apply andb_true_iff. split; [now apply early_spec|]. cbn. now apply Z.eqb_eq.
    - intros H j [d' ec'] Ej P. apply andb_true_iff in P. destruct P as [P1 P2]. apply (H j d' ec' Ej); [|now apply early_spec]. cbn in P2. now apply Z.eqb_eq.
  Qed.
  Lemma chosen_spec i d ec : nth_error rows i = Some (d, ec) -> chosen (d, ec) = true <-> passes c rows i.
  Proof.
    intros E. unfold chosen. rewrite !andb_true_iff.
    assert (L : on_rows (b5 (z_rmax c)) (d, ec) = true /\ on_rows (b6 (z_ld c) (z_hd c)) (d, ec) = true /\ on_rows (b7 (z_ln c) (z_hn c)) (d, ec) = true <-> late c d) by (unfold on_rows, b5, b6, b7; rewrite !cut_within; reflexivity).
    split.
    - intros ((((B & Al) & X1) & X2) & X3). exists d, ec. split; [exact E|]. split; [now apply early_spec|]. split; [apply L; tauto|]. now apply (proj1 (alone_spec i d ec E B)).
    - intros (d' & ec' & E' & B & La & U). rewrite E in E'. injection E' as <- <-. apply early_spec in B. apply L in La. destruct La as (X1 & X2 & X3). repeat (split; try assumption). now apply (proj2 (alone_spec i d ec E B)).
  Qed.
  Lemma flags_spec i : nth i (map chosen rows) false = true <-> passes c rows i.
  Proof.
    destruct (nth_error rows i) as [[d ec]|] eqn:E.
    - rewrite (nth_error_nth (map chosen rows) i (x := chosen (d, ec)) false); [|now apply map_nth_error]. now apply chosen_spec.
    - split.
      + rewrite nth_overflow; [discriminate|]. rewrite map_length. now apply nth_error_None.
      + intros (d & ec & E' & _). congruence.
  Qed.
  (** the events selected are different *)
  Lemma chosen_nodup : NoDup (map (fun r => dr_event (fst r)) (filter chosen rows)).
  Proof.
    assert (H : forall r, In r (filter chosen rows) -> early_b r = true /\ on_rows (alone (map view W3)) r = true) by (intros r Hr; apply filter_In in Hr; destruct Hr as [_ Hr]; unfold chosen in Hr; rewrite !andb_true_iff in Hr; tauto).
    assert (C : forall r, In r (filter chosen rows) -> (length (filter (fun a => (dr_event (fst a) =? dr_event (fst r))%Z) (filter chosen rows)) <= 1)%nat).
    { intros r Hr. destruct (H r Hr) as [_ Al]. unfold on_rows in Al. rewrite <- alone_rows in Al. apply Nat.eqb_eq in Al. rewrite <- Al. rewrite w3_eq, !filters_and. clear - c. induction rows as [|x l IH]; [apply le_n|]. cbn [filter].
      destruct (chosen x) eqn:Ex; cbn [andb].
      - assert (Eb : early_b x = true) by (unfold chosen in Ex; rewrite !andb_true_iff in Ex; tauto). rewrite Eb. cbn [andb]. change (k_event (view x)) with (dr_event (fst x)). change (k_event (view r)) with (dr_event (fst r)). destruct (_ =? _)%Z; cbn [length]; [apply le_n_S|]; apply IH.
      - destruct (early_b x && _); cbn [length]; [apply Nat.le_le_succ_r|]; apply IH. }
    clear H. set (s := filter chosen rows) in *. clearbody s. induction s as [|x s IH]; [constructor|]. cbn [map]. constructor.
    - intros I. apply in_map_iff in I. destruct I as (y & E & Hy). specialize (C x (or_introl eq_refl)). cbn [filter] in C. rewrite Z.eqb_refl in C. cbn [length] in C. assert (I : In y (filter (fun a => (dr_event (fst a) =? dr_event (fst x))%Z) s)) by (apply filter_In; split; [exact Hy|now apply Z.eqb_eq]). destruct (filter _ s); [destruct I|cbn in C; lia].
    - apply IH. intros r Hr. specialize (C r (or_intror Hr)). cbn [filter] in C. destruct (_ =? _)%Z in C; cbn [length] in C; lia.
  Qed.
End Positions.

(** ---- the corrections ---- *)
Section Applied.
  Variable nearest : list (Q * Q * Q) -> Q * Q * Q -> nat.
  Hypothesis griddata : takes_nearest nearest.
  Lemma applied_with m method xy (df : list krevent) ecs : rbind (rmap data_point df) (apply_3Dmap nearest m method xy (Some keV)) = Ok ecs -> Forall2 (corrected_with m) df ecs.
  Proof using griddata.
    destruct (rmap data_point df) as [data|] eqn:D; [|discriminate]. cbn [rbind]. unfold apply_3Dmap. destruct (normalization _ _ _) as [norm|]; [|discriminate]. cbn [rbind]. intros H.
    pose proof (rmap_forall2 _ _ _ D) as FD. pose proof (rmap_forall2 _ _ _ H) as FH. clear D H. revert ecs FH. induction FD as [|e [p s] df data E FD IH]; intros ecs FH; inversion FH as [|? ec ? ecs' Hx Hrest]; subst; constructor; [|now apply IH]. clear IH FH Hrest.
    intros q Hq. unfold data_point in E. destruct (kDT e) as [t|] eqn:Et; [|discriminate]. destruct (kX e) as [x|] eqn:Ex; [|discriminate]. destruct (kY e) as [y|] eqn:Ey; [|discriminate]. injection E as <- <-.
    destruct (nth_error _ _) as [mu0|] eqn:N; [|discriminate]. assert (Hm : exists b, In b m /\ kb_mu b <> None).
    { apply nth_error_In in N. unfold present in N. apply in_flat_map in N. destruct N as (v & Hv & Hb). apply in_map_iff in Hv. destruct Hv as (b & <- & Hf). apply filter_In in Hf. exists b. split; [tauto|]. destruct (kb_mu b); [discriminate|destruct Hb]. }
    destruct (nearest_mu nearest griddata m (t, x, y) Hm) as (mu & b & N' & B). rewrite N in N'. injection N' as ->. destruct (Qeqb_spec mu 0) as [|Zm]; [discriminate|]. destruct norm as [n|]; [|congruence]. destruct (kS2e e) as [s|] eqn:Es; [|congruence].
    change (Qeqb keV 0) with false in Hx. destruct (Qeqb_spec n 0) as [|Zn]; [congruence|]. assert (Eq : s * (n / mu) / n * (4155 # 100) * keV / keV = q) by congruence.
    exists (t, x, y), b, mu, s. split; [now exists t, x, y|]. split; [exact B|]. split; [reflexivity|]. rewrite <- Eq. unfold keV. field. auto.
  Qed.
  Lemma rmap_map {A B C} (f : B -> result C) (g : A -> B) l : rmap f (map g l) = rmap (fun a => f (g a)) l.
  Proof. induction l as [|a l IH]; [reflexivity|]. cbn [map rmap]. now rewrite IH. Qed.
  Lemma applied_rows c pre df ecs : apply_map nearest c pre df = Ok ecs -> Forall2 (fun d ec => corrected_with pre (dr_kr d) ec) df ecs.
  Proof using griddata.
    intros H. unfold apply_map in H. rewrite <- (rmap_map data_point dr_kr) in H. apply applied_with in H. revert H. generalize ecs. induction df as [|d df IH]; intros es H; inversion H; subst; constructor; auto.
  Qed.
End Applied.

(** ---- the events of the map ---- *)
Definition sum_nat (l : list nat) : nat := fold_right Nat.add 0%nat l.
Lemma sum_by_key {B} (keys : list key) (rows : list (key * B)) : NoDup keys -> (forall r, In r rows -> In (fst r) keys) ->
  sum_nat (map (fun p => length (filter (fun r => if key_dec (fst r) p then true else false) rows)) keys) = length rows.
Proof.
  intros N. induction rows as [|r rows IH]; intros H.
  - cbn [filter length]. clear. induction keys; [reflexivity|]. cbn. exact IHkeys.
  - cbn [length]. rewrite <- IH by (intros x Hx; apply H; now right). specialize (H r (or_introl eq_refl)). clear IH. revert H. induction N as [|k keys Nk N IHk]; intros H; [destruct H|]. cbn [map sum_nat fold_right filter]. destruct (key_dec (fst r) k) as [E|D].
    + cbn [length]. rewrite (map_ext_in _ (fun p => length (filter (fun r => if key_dec (fst r) p then true else false) rows))); [reflexivity|]. intros p Hp. destruct (key_dec (fst r) p) as [E'|]; [|reflexivity]. exfalso. apply Nk. rewrite <- E, E'. exact Hp.
    + destruct H as [H|H]; [congruence|]. unfold sum_nat in IHk. cbn [filter] in IHk. rewrite (IHk H). lia.
Qed.
Lemma sum_cons x l : sumQ (x :: l) == x + sumQ l. Proof. reflexivity. Qed.
Lemma qn_add a b : qn (a + b) == qn a + qn b. Proof. unfold qn. now rewrite Nat2Z.inj_add, inject_Z_plus. Qed.
Lemma map_counts fit xy0 xy1 dt0 dt1 n nz s0 s1 df rows : (forall l, l <> [] -> nevents (fit l) = Some (qn (length l))) -> (0 < n)%nat -> (0 < nz)%nat ->
  compute_3D_map fit xy0 xy1 dt0 dt1 n nz s0 s1 df = Ok rows -> events_in_map rows == qn (length (flat_map (binned xy0 xy1 dt0 dt1 n nz s0 s1) df)).
Proof.
  intros F Hn Hz M. destruct (C40_map fit xy0 xy1 dt0 dt1 n nz s0 s1 Hn Hz df rows M) as ((S & G) & C & _). set (bs := flat_map (binned xy0 xy1 dt0 dt1 n nz s0 s1) df).
  assert (ND : NoDup (map r_key rows)) by (apply sorted_before_nodup; exact S). assert (I : forall r, In r bs -> In (fst r) (map r_key rows)).
  { intros [p s] Hr. apply (binned_fits xy0 xy1 dt0 dt1 n nz s0 s1 Hn Hz) in Hr. destruct p as [[k i] j]. apply G. exact Hr. }
  rewrite <- (sum_by_key (map r_key rows) bs ND I). rewrite map_map. unfold events_in_map.
  assert (E : forall r, In r rows -> match nevents (r_fit r) with Some q => q | None => 0 end = qn (length (filter (fun b => if key_dec (fst b) (r_key r) then true else false) bs))).
  { intros r Hr. destruct (C r Hr) as (-> & _). assert (Fp : fits_in nz n n (r_key r)) by (pose proof (in_map r_key _ _ Hr) as Ik; destruct (r_key r) as [[k i] j]; exact (proj1 (G k i j) Ik)). unfold measured. pose proof (energies_of_key xy0 xy1 dt0 dt1 n nz s0 s1 Hn Hz df (r_key r) Fp) as Ee. fold bs in Ee. rewrite <- Ee.
    rewrite <- (map_length snd (filter _ bs)). destruct (map snd (filter _ bs)) as [|x l] eqn:El; [reflexivity|]. rewrite F by discriminate. reflexivity. }
  clear - E. induction rows as [|r rows IH]; [reflexivity|]. cbn [map sum_nat fold_right]. rewrite sum_cons, (E r (or_introl eq_refl)), IH by (intros x Hx; apply E; now right). unfold sum_nat. rewrite qn_add. reflexivity.
Qed.
Lemma fit_counts std over_sqrt fit nbins min_events l : nevents (gaussian_fit std over_sqrt fit nbins min_events l) = Some (qn (length l)).
Proof. unfold gaussian_fit. destruct (_ <? _)%nat; [reflexivity|]. destruct (fit l nbins) as [[[[m s] me] se]|]; [|reflexivity]. destruct (negb _); reflexivity. Qed.
