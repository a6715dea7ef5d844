(** C80: corrected hits *)
From Verif Require Import Base Arrays PeaksModel PeaksProofs BuffersProofs WfmModel WfmProps PmapioProofs KrProps CorrModel CorrSpec CorrProps CorrMore XyProps HitsModel HitsSpec HitsProofs HitsProps EsmModel EsmSpec.
Local Open Scope Q_scope.

Lemma nanmedian_velocity dvs v : nanmedian dvs = Some v -> is_median (numbers dvs) v.
Proof. intros H. pose proof (nanmedian_is dvs) as K. rewrite H in K. exact K. Qed.

Section C80.
  Variable nearest : list (Q * Q * Q) -> Q * Q * Q -> nat.
  Hypothesis griddata : takes_nearest nearest.
  Variables (m : list kbin) (dvs : list (option Q)) (method : norm_method) (xy : option region).
  Lemma inplace_ok hits : usable_map m method xy -> exists out, correct_inplace nearest m method xy hits = Ok out /\ Forall2 (corrected_hit m None) hits out.
  Proof.
    intros (H1 & H2 & n & H3 & H4). unfold correct_inplace.
    destruct (C56_with_unit nearest griddata m method xy MeV (map (fun h => (hZ h, hX h, hY h, hE h)) hits) n H1 H2 ltac:(unfold MeV; lra) H3 H4) as (ecs & E & F).
    rewrite E. cbn [rbind]. eexists. split; [reflexivity|]. clear E. revert ecs F. induction hits as [|h hits IH]; intros ecs F; inversion F as [|? c ? ecs' C F']; subst; [constructor|].
    cbn [map2]. constructor; [|now apply IH]. repeat (split; [reflexivity|]). split; [|reflexivity]. unfold calibrated, corrected_with_unit in *. cbn [fst snd with_ec hEc] in *. destruct (hE h) as [e|]; [|assumption].
    destruct C as (q & b & mu & C1 & C2 & C3). exists q, b, mu. split; [assumption|]. split; [assumption|]. unfold MeV, keV in C3. rewrite Qmult_1_r in C3. rewrite C3. ring.
  Qed.
  (** without corrections in time: every hit is corrected with the map at its drift time and position, and the frame given is the one returned *)
  Theorem C80_corrected apply_z hits : usable_map m method xy -> (apply_z = true -> numbers dvs <> []) ->
    exists out dv, correct nearest m dvs method xy false apply_z hits = (out, Ok out) /\ velocity dvs apply_z dv /\ Forall2 (corrected_hit m dv) hits out.
  Proof.
    intros U V. destruct (inplace_ok hits U) as (mid & E & F). unfold correct. rewrite E. unfold velocity. destruct apply_z; [|exists mid, None; auto].
    destruct (nanmedian dvs) as [v|] eqn:N; [|exfalso; pose proof (nanmedian_is dvs) as K; rewrite N in K; now apply V].
    eexists _, (Some v). split; [reflexivity|]. split; [exists v; split; [reflexivity|now apply nanmedian_velocity]|].
    clear E. induction F as [|h h' hits mid C F IH]; [constructor|]. cbn [map]. constructor; [|assumption].
    destruct C as (C1 & C2 & C3 & C4 & C5 & C6 & C7 & C8). cbn in C8. repeat (split; [assumption|]). cbn. now rewrite C8.
  Qed.
  (** with corrections in time there is never a result, although the frame given was changed *)
  Theorem C80_temp apply_z hits : (forall out, snd (correct nearest m dvs method xy true apply_z hits) <> Ok out) /\
    fst (correct nearest m dvs method xy true apply_z hits) = fst (correct nearest m dvs method xy false apply_z hits).
  Proof.
    unfold correct. destruct (correct_inplace nearest m method xy hits) as [mid|e]; [|split; [discriminate|reflexivity]].
    destruct apply_z; [destruct (nanmedian dvs)|]; split; try discriminate; reflexivity.
  Qed.
End C80.

(** ---- the hits of an event ---- *)
Theorem C80_dropper R hits : drop_hits R hits = filter (inside R) hits /\
  (forall h, In h (drop_hits R hits) <-> In h hits /\ hX h * hX h + hY h * hY h < R * R) /\
  total hEc hits == total hEc (drop_hits R hits) + total hEc (filter (fun h => negb (inside R h)) hits) /\
  total hE hits == total hE (drop_hits R hits) + total hE (filter (fun h => negb (inside R h)) hits).
Proof.
  split; [reflexivity|]. split.
  - intros h. unfold drop_hits. rewrite filter_In, Qltb_lt. reflexivity.
  - assert (K : forall col, total col hits == total col (drop_hits R hits) + total col (filter (fun h => negb (inside R h)) hits)); [|split; apply K].
    intros col. unfold total, drop_hits. fold (inside R). induction hits as [|h hits IH]; [reflexivity|]. cbn [filter]. change (Qltb (hX h * hX h + hY h * hY h) (R * R)) with (inside R h). destruct (inside R h); cbn [negb]; rewrite !sumF_cons, IH; ring.
Qed.

Lemma same_row_place h h' : same_row h h' -> place h' = place h.
Proof. intros (A & B & C & D & E & F). unfold place. congruence. Qed.
Lemma rows_places l o : Forall2 same_row l o -> map place o = map place l.
Proof. induction 1 as [|a b l o R F IH]; [reflexivity|]. cbn. now rewrite IH, (same_row_place a b R). Qed.
Lemma merge_places ec sp hits : map place (merge_NN_hits ec sp hits) = map place (filter (fun h => negb (is_nn h)) hits).
Proof.
  unfold merge_NN_hits. destruct (existsb is_nn hits) eqn:E; [now rewrite map_map|]. f_equal. symmetry. apply filter_all. intros h Hh. destruct (is_nn h) eqn:N; [|reflexivity].
  assert (existsb is_nn hits = true) by (apply existsb_exists; eauto). congruence.
Qed.
Lemma above_not_nn th h : 0 < th -> th <= hQ h -> is_nn h = false.
Proof. intros T H. unfold is_nn. destruct (Qeqb_spec (hQ h) NN) as [E|]; [|reflexivity]. rewrite E in H. unfold NN in H. lra. Qed.
Lemma slice_places th s : 0 < th -> map place (filter (fun h => negb (is_nn h)) (apply_threshold th s)) = map place (filter (above th) s).
Proof.
  intros T. unfold apply_threshold. change (fun h => Qle_bool th (hQ h)) with (above th). destruct (filter (above th) s) as [|a sel] eqn:E.
  - destruct s as [|f r]; reflexivity.
  - rewrite <- E. assert (K : forall h, In h (filter (above th) s) -> is_nn h = false) by (intros h Hh; apply filter_In in Hh; destruct Hh as [_ Hh]; apply (above_not_nn th); [assumption|now apply Qleb_le]).
    set (q := sumF hQ _ + EPSILON). clearbody q. clear E. induction (filter (above th) s) as [|h l IH]; [reflexivity|]. cbn [map filter]. change (is_nn {| hmeta := hmeta h; npeak := npeak h; hX := hX h; hY := hY h; hZ := hZ h; hQ := hQ h; hE := _; hEc := _ |}) with (is_nn h).
    rewrite (K h (or_introl eq_refl)). cbn [negb map]. f_equal. apply IH. intros; apply K; now right.
Qed.
Lemma slices_perm (hits : list hit) zs : StronglySorted Qlt zs -> (forall h, In h hits -> exists z, In z zs /\ z == hZ h) ->
  Permutation (flat_map (fun z => filter (fun h => Qeqb (hZ h) z) hits) zs) hits.
Proof.
  intros S. revert hits. induction S as [|y zs S IH F]; intros hits H; [destruct hits as [|h hits]; [constructor|destruct (H h (or_introl eq_refl)) as (z & [] & _)]|].
  cbn [flat_map]. rewrite Forall_forall in F. transitivity (filter (fun h => Qeqb (hZ h) y) hits ++ filter (fun h => negb (Qeqb (hZ h) y)) hits); [|apply filter_split_perm].
  apply Permutation_app_head. rewrite <- (IH (filter (fun h => negb (Qeqb (hZ h) y)) hits)).
  - assert (K : forall z, In z zs -> filter (fun h => Qeqb (hZ h) z) (filter (fun h => negb (Qeqb (hZ h) y)) hits) = filter (fun h => Qeqb (hZ h) z) hits).
    { intros z Hz. specialize (F z Hz). clear -F. induction hits as [|h hits IH]; [reflexivity|]. cbn [filter]. destruct (Qeqb_spec (hZ h) y); cbn [negb filter]; destruct (Qeqb_spec (hZ h) z); rewrite ?IH; try reflexivity; exfalso; lra. }
    clear -K. induction zs as [|z zs IHz]; [reflexivity|]. cbn [flat_map]. rewrite K by now left. apply Permutation_app_head. apply IHz. intros; apply K; now right.
  - intros h Hh. apply filter_In in Hh. destruct Hh as [Hh N]. destruct (H h Hh) as (z & [<-|Hz] & Ez); [|eauto]. exfalso. destruct (Qeqb_spec (hZ h) y); [discriminate|lra].
Qed.
(** the hits that remain are those above threshold, each one once and at its place *)
Lemma threshold_merge_places th sp hits : 0 < th -> Permutation (map place (threshold_hits_and_merge_nn th sp hits)) (map place (filter (above th) hits)).
Proof.
  intros T. unfold threshold_hits_and_merge_nn. rewrite merge_places. unfold threshold_hits. destruct (Qleb_spec th 0) as [C|_]; [exfalso; lra|]. destruct (distinct_spec (map hZ hits)) as [S Hin].
  rewrite filter_flat_map. transitivity (flat_map (fun z => map place (filter (above th) (filter (fun h => Qeqb (hZ h) z) hits))) (distinct_q (map hZ hits))).
  - clear -T. induction (distinct_q (map hZ hits)) as [|z zs IH]; [reflexivity|]. cbn [flat_map]. rewrite map_app, slice_places by assumption. now apply Permutation_app_head.
  - transitivity (map place (filter (above th) (flat_map (fun z => filter (fun h => Qeqb (hZ h) z) hits) (distinct_q (map hZ hits))))).
    + clear. induction (distinct_q (map hZ hits)) as [|z zs IH]; [reflexivity|]. cbn [flat_map]. rewrite filter_app, map_app. now apply Permutation_app_head.
    + apply Permutation_map. assert (P : forall l l', Permutation l l' -> Permutation (filter (above th) l) (filter (above th) l')).
      { clear. induction 1; cbn; repeat match goal with |- context [above th ?a] => destruct (above th a) end; eauto using Permutation. }
      apply P. apply slices_perm; [assumption|]. intros h Hh. destruct (proj2 (Hin (hZ h))) as (w & Hw & Ew); [exists (hZ h); split; [now apply in_map|reflexivity]|]. eauto.
Qed.

(** ---- the energy after a threshold ---- *)
(** exchanging the two energies *)
Definition swap (h : hit) : hit := {| hmeta := hmeta h; npeak := npeak h; hX := hX h; hY := hY h; hZ := hZ h; hQ := hQ h; hE := hEc h; hEc := hE h |}.
Lemma filter_swap p l : (forall h, p (swap h) = p h) -> filter p (map swap l) = map swap (filter p l).
Proof. intros H. induction l as [|h l IH]; [reflexivity|]. cbn [map filter]. rewrite H, IH. destruct (p h); reflexivity. Qed.
Lemma threshold_swap th s : apply_threshold th (map swap s) = map swap (apply_threshold th s).
Proof.
  unfold apply_threshold. rewrite (filter_swap (fun h => Qle_bool th (hQ h))) by reflexivity. rewrite !map_map. destruct (filter (fun h => Qle_bool th (hQ h)) s) as [|a sel] eqn:E.
  - destruct s; reflexivity.
  - cbn [map]. change (sumF hQ (swap a :: map swap sel)) with (sumF hQ (map swap (a :: sel))). assert (Q : sumF hQ (map swap (a :: sel)) = sumF hQ (a :: sel)) by (unfold sumF; rewrite map_map; reflexivity). rewrite Q. f_equal. rewrite !map_map. reflexivity.
Qed.
Lemma threshold_hits_swap th hits : threshold_hits th (map swap hits) = map swap (threshold_hits th hits).
Proof.
  unfold threshold_hits. destruct (Qle_bool th 0); [reflexivity|]. rewrite map_map. change (map (fun x => hZ (swap x)) hits) with (map hZ hits). induction (distinct_q (map hZ hits)) as [|z zs IH]; [reflexivity|].
  cbn [flat_map]. rewrite IH, map_app. f_equal. rewrite (filter_swap (fun h => Qeqb (hZ h) z)) by reflexivity. apply threshold_swap.
Qed.
Lemma merge_swap sp hits : merge_NN_hits true sp (map swap hits) = map swap (merge_NN_hits true sp hits).
Proof.
  unfold merge_NN_hits. assert (X : existsb is_nn (map swap hits) = existsb is_nn hits) by (induction hits as [|h l IH]; [reflexivity|cbn; now rewrite IH]). rewrite X. destruct (existsb is_nn hits); [|reflexivity].
  rewrite (filter_swap is_nn), (filter_swap (fun h => negb (is_nn h))) by reflexivity. rewrite !map_map. set (rest := filter (fun h => negb (is_nn h)) hits). set (nns := filter is_nn hits). apply map_ext. intros h.
  assert (M : forall nn, dz_min sp (map swap rest) (swap nn) = dz_min sp rest nn). { intros nn. unfold dz_min. rewrite (filter_swap (candidate sp (swap nn))) by reflexivity. now rewrite map_map. }
  assert (Cl : forall nn g, closest sp (map swap rest) (swap nn) (swap g) = closest sp rest nn g) by (intros nn g; unfold closest; now rewrite M).
  assert (Co : forall nn, correction sp (map swap rest) hE (swap nn) (swap h) = correction sp rest hEc nn h /\ correction sp (map swap rest) hEc (swap nn) (swap h) = correction sp rest hE nn h).
  { intros nn. unfold correction. rewrite Cl. assert (Fi : filter (closest sp (map swap rest) (swap nn)) (map swap rest) = map swap (filter (closest sp rest nn) rest)).
    { generalize rest at 2 4. intros l. induction l as [|g l IH]; [reflexivity|]. cbn [map filter]. rewrite Cl, IH. destruct (closest sp rest nn g); reflexivity. }
    rewrite Fi, !map_map. destruct (closest sp rest nn h); split; reflexivity. }
  assert (D : corrected sp (map swap rest) (map swap nns) hE (swap h) = corrected sp rest nns hEc h /\ corrected sp (map swap rest) (map swap nns) hEc (swap h) = corrected sp rest nns hE h).
  { unfold corrected. change (hE (swap h)) with (hEc h). change (hEc (swap h)) with (hE h). split; f_equal; generalize (Some 0); clear -Co; induction nns as [|nn nns IH]; intros a; try reflexivity; cbn [map fold_left]; [rewrite (proj1 (Co nn))|rewrite (proj2 (Co nn))]; apply IH. }
  unfold swap at 2. cbn [hmeta npeak hX hY hZ hQ hE hEc]. destruct D as [D1 D2]. rewrite D1, D2. reflexivity.
Qed.
Lemma thresholder_swap th sp hits : threshold_hits_and_merge_nn th sp (map swap hits) = map swap (threshold_hits_and_merge_nn th sp hits).
Proof. unfold threshold_hits_and_merge_nn. rewrite threshold_hits_swap. apply merge_swap. Qed.
Lemma total_swap l : total hE (map swap l) = total hEc l.
Proof. unfold total, sumF. now rewrite map_map. Qed.

(** a slice keeps its energy up to the regulator *)
Lemma slice_energy th s : 0 < th -> (forall h, In h s -> 0 <= val (hE h)) ->
  total hE s * th <= total hE (apply_threshold th s) * (th + EPSILON) /\ total hE (apply_threshold th s) <= total hE s + EPSILON.
Proof.
  intros T He. assert (P : 0 <= total hE s) by (apply sumF_nonneg; assumption). pose proof eps_pos as Ep.
  destruct (apply_threshold_spec th s T) as [(Hne & _ & A & _)|[(_ & f & r & nn & _ & Eo & _ & _ & _ & _ & _ & _ & (e & E1 & E2) & _)|[E1 E2]]].
  - set (sel := filter _ s) in *. set (qs := sumF hQ sel) in *. assert (Q0 : th <= qs).
    { unfold qs. assert (Hs : forall g, In g sel -> th <= hQ g) by (intros g Hg; apply filter_In in Hg; now apply Qleb_le). destruct sel as [|g sel]; [contradiction|]. rewrite sumF_cons. pose proof (Hs g (or_introl eq_refl)).
      assert (0 <= sumF hQ sel) by (apply sumF_nonneg; intros x Hx; specialize (Hs x (or_intror Hx)); lra). lra. }
    set (o := total hE (apply_threshold th s)) in *. set (t := total hE s) in *. clearbody o t qs. split.
    + assert (Ho : o == qs * (t + EPSILON) / (qs + EPSILON)) by (rewrite <- A; field; lra). rewrite Ho.
      assert (E : qs * (t + EPSILON) / (qs + EPSILON) * (th + EPSILON) - t * th == EPSILON * (qs * EPSILON + qs * th + t * (qs - th)) / (qs + EPSILON)) by (field; lra).
      assert (0 <= EPSILON * (qs * EPSILON + qs * th + t * (qs - th)) / (qs + EPSILON)); [|lra]. apply Qle_shift_div_l; [lra|]. rewrite Qmult_0_l. apply Qmult_le_0_compat; [lra|]. assert (0 <= qs * EPSILON) by (apply Qmult_le_0_compat; lra). assert (0 <= qs * th) by (apply Qmult_le_0_compat; lra). assert (0 <= t * (qs - th)) by (apply Qmult_le_0_compat; lra). lra.
    + assert (Ho : o == qs * (t + EPSILON) / (qs + EPSILON)) by (rewrite <- A; field; lra). rewrite Ho. apply Qle_shift_div_r; [lra|]. assert (0 <= (t + EPSILON) * EPSILON) by (apply Qmult_le_0_compat; lra). lra.
  - rewrite Eo. unfold total at 2 3. cbn. rewrite E1. cbn. rewrite E2. split; [|lra]. assert (0 <= total hE s * EPSILON) by (apply Qmult_le_0_compat; lra). lra.
  - rewrite E2, E1. cbn. split; lra.
Qed.
Lemma threshold_energy th hits : 0 < th -> (forall h, In h hits -> 0 <= val (hE h)) ->
  total hE hits * th <= total hE (threshold_hits th hits) * (th + EPSILON) /\
  total hE (threshold_hits th hits) <= total hE hits + inject_Z (Z.of_nat (length (distinct_q (map hZ hits)))) * EPSILON.
Proof.
  intros T He. destruct (distinct_spec (map hZ hits)) as [S Hin]. assert (A : forall h, In h hits -> exists z, In z (distinct_q (map hZ hits)) /\ z == hZ h).
  { intros h Hh. destruct (proj2 (Hin (hZ h))) as (w & Hw & Ew); [exists (hZ h); split; [now apply in_map|reflexivity]|]. eauto. }
  assert (B : forall h, In h (threshold_hits th hits) -> exists z, In z (distinct_q (map hZ hits)) /\ z == hZ h).
  { intros h Hh. unfold threshold_hits in Hh. destruct (Qleb_spec th 0) as [C|_]; [exfalso; lra|]. apply in_flat_map in Hh. destruct Hh as (z & Hz & Hh). exists z. split; [assumption|]. symmetry. eapply apply_threshold_z; [|exact Hh]. intros x Hx. apply filter_In in Hx. now apply Qeqb_eq. }
  rewrite (total_slices hE hits _ S A), (total_slices hE (threshold_hits th hits) _ S B). clear A B Hin S.
  assert (K : forall z, total hE (slice_at z hits) * th <= total hE (slice_at z (threshold_hits th hits)) * (th + EPSILON) /\ total hE (slice_at z (threshold_hits th hits)) <= total hE (slice_at z hits) + EPSILON).
  { intros z. rewrite threshold_slices by assumption. apply slice_energy; [assumption|]. intros h Hh. apply He. now apply slice_in in Hh. }
  induction (distinct_q (map hZ hits)) as [|z zs [I1 I2]]; [split; [cbn; lra|change (0 <= 0 + 0 * EPSILON); lra]|]. rewrite !sumF_cons. cbn [length]. rewrite Nat2Z.inj_succ, <- Z.add_1_r, inject_Z_plus. change (inject_Z 1) with 1. destruct (K z) as [K1 K2]. split; lra.
Qed.
(** the energy that remains, in any of the two columns *)
Definition kept_energy (th : Q) (hits out : list hit) (col : hit -> num) : Prop :=
  total col hits * th <= total col out * (th + EPSILON) /\ total col out <= total col hits + inject_Z (Z.of_nat (length (distinct_q (map hZ hits)))) * EPSILON.
Lemma thresholder_energy th sp hits : 0 < th -> (forall h, In h hits -> 0 <= val (hE h) /\ 0 <= val (hEc h)) ->
  (forall h, In h hits -> exists c, In c hits /\ th <= hQ c /\ eligible sp h c) ->
  kept_energy th hits (threshold_hits_and_merge_nn th sp hits) hE /\ kept_energy th hits (threshold_hits_and_merge_nn th sp hits) hEc.
Proof.
  intros T He Hc. assert (K : forall hits, (forall h, In h hits -> 0 <= val (hE h)) -> (forall h, In h hits -> exists c, In c hits /\ th <= hQ c /\ eligible sp h c) -> kept_energy th hits (threshold_hits_and_merge_nn th sp hits) hE).
  { intros l L1 L2. unfold kept_energy. destruct (C19_threshold_and_merge th sp l T L1 L2) as [_ E]. rewrite E. now apply threshold_energy. }
  split; [apply K; [intros h Hh; now apply He|assumption]|]. unfold kept_energy. rewrite <- !total_swap, <- thresholder_swap.
  assert (M : map hZ hits = map hZ (map swap hits)) by now rewrite map_map. rewrite M. apply K.
  - intros h Hh. apply in_map_iff in Hh. destruct Hh as (g & <- & Hg). now apply He.
  - intros h Hh. apply in_map_iff in Hh. destruct Hh as (g & <- & Hg). destruct (Hc g Hg) as (c & C1 & C2 & C3). exists (swap c). split; [now apply in_map|]. split; assumption.
Qed.

(** ---- C80: the hits of an event ---- *)
Definition moved (dv : option Q) (h : hit) : nat * nat * Q * Q * Q * Q :=
  (hmeta h, npeak h, hX h, hY h, match dv with Some v => hZ h * v | None => hZ h end, hQ h).
Lemma corrected_places m dv hits mid p : Forall2 (corrected_hit m dv) hits mid -> (forall h h', corrected_hit m dv h h' -> p h' = p h) ->
  map place (filter p mid) = map (moved dv) (filter p hits).
Proof.
  intros F P. induction F as [|h h' hits mid C F IH]; [reflexivity|]. cbn [filter]. rewrite (P h h' C). destruct (p h); [|assumption]. cbn [map]. rewrite IH. f_equal.
  destruct C as (C1 & C2 & C3 & C4 & C5 & C6 & C7 & C8). unfold place, moved. now rewrite C1, C2, C3, C4, C5, C8.
Qed.
Lemma corrected_inside m dv R h h' : corrected_hit m dv h h' -> inside R h' = inside R h.
Proof. intros (C1 & C2 & C3 & C4 & _). unfold inside. now rewrite C3, C4. Qed.
Lemma corrected_above m dv th h h' : corrected_hit m dv h h' -> above th h' = above th h.
Proof. intros (C1 & C2 & C3 & C4 & C5 & _). unfold above. now rewrite C5. Qed.
Lemma corrected_energies m dv h h' : (forall b mu, In b m -> kb_mu b = Some mu -> 0 < mu) -> corrected_hit m dv h h' -> 0 <= val (hE h) -> 0 <= val (hE h') /\ 0 <= val (hEc h').
Proof.
  intros Hm (C1 & C2 & C3 & C4 & C5 & C6 & C7 & C8) H. rewrite C6. split; [assumption|]. unfold calibrated in C7. destruct (hE h) as [e|]; [|rewrite C7; cbn; lra]. cbn in H.
  destruct C7 as (q & b & mu & -> & (B1 & B2 & _) & E). cbn. pose proof (Hm b mu B1 B2). apply Qnot_lt_le. intros C. assert (0 <= e * (4155 # 100000)) by (apply Qmult_le_0_compat; lra). assert (0 < (- q) * mu) by (apply Qmult_lt_0_compat; lra). lra.
Qed.
Lemma F2_filter {A} (R : A -> A -> Prop) p l l' : Forall2 R l l' -> (forall a b, R a b -> p b = p a) -> Forall2 R (filter p l) (filter p l').
Proof. intros F P. induction F as [|a b l l' H F IH]; [constructor|]. cbn [filter]. rewrite (P a b H). destruct (p a); [constructor|]; assumption. Qed.
Lemma F2_in_right {A} (R : A -> A -> Prop) l l' b : Forall2 R l l' -> In b l' -> exists a, In a l /\ R a b.
Proof. induction 1 as [|x y l l' H F IH]; intros []; [subst; exists x; split; [now left|assumption]|]. destruct IH as (a & Ia & Ra); [assumption|]. exists a. split; [now right|assumption]. Qed.
Lemma F2_in_left {A} (R : A -> A -> Prop) l l' a : Forall2 R l l' -> In a l -> exists b, In b l' /\ R a b.
Proof. induction 1 as [|x y l l' H F IH]; intros []; [subst; exists y; split; [now left|assumption]|]. destruct IH as (b & Ib & Rb); [assumption|]. exists b. split; [now right|assumption]. Qed.

Section Event.
  Variable nearest : list (Q * Q * Q) -> Q * Q * Q -> nat.
  Hypothesis griddata : takes_nearest nearest.
  Variables (m : list kbin) (dvs : list (option Q)) (method : norm_method) (xy : option region).
  Hypothesis U : usable_map m method xy.
  (** what is left of an event: the hits inside the circle with charge at least the threshold, each one once with its position
      and charge; and, if energies and map are positive and every hit inside the circle has some hit to give its energy to,
      the total energies are those of the corrected hits inside the circle, up to the regulator *)
  Theorem C80_event apply_z R th sp hits : (apply_z = true -> numbers dvs <> []) -> 0 < th ->
    exists mid dv out, velocity dvs apply_z dv /\ Forall2 (corrected_hit m dv) hits mid /\
      esmeralda_hits nearest m dvs method xy false apply_z R th sp hits = Ok out /\
      Permutation (map place out) (map (moved dv) (filter (fun h => inside R h && above th h) hits)) /\
      ((forall b mu, In b m -> kb_mu b = Some mu -> 0 < mu) -> (forall h, In h hits -> 0 <= val (hE h)) ->
       (forall h, In h hits -> inside R h = true -> exists c, In c hits /\ inside R c = true /\ th <= hQ c /\ eligible sp h c) ->
       kept_energy th (filter (inside R) mid) out hE /\ kept_energy th (filter (inside R) mid) out hEc).
  Proof.
    intros V T. destruct (C80_corrected nearest griddata m dvs method xy apply_z hits U V) as (mid & dv & E & Hv & F). exists mid, dv. unfold esmeralda_hits. rewrite E. cbn [snd rbind]. eexists. split; [assumption|]. split; [assumption|]. split; [reflexivity|].
    change (drop_hits R mid) with (filter (inside R) mid). split.
    - rewrite threshold_merge_places by assumption. rewrite BuffersEvent.filter_filter. rewrite (corrected_places m dv hits mid _ F); [|intros h h' C; now rewrite (corrected_inside m dv R h h' C), (corrected_above m dv th h h' C)].
      apply Permutation_refl.
    - intros Hm He Hc. apply thresholder_energy; [assumption| |].
      + intros h' Hh. apply filter_In in Hh. destruct Hh as [Hh _]. destruct (F2_in_right _ _ _ _ F Hh) as (h & I & C). apply (corrected_energies m dv h h' Hm C). now apply He.
      + intros h' Hh. apply filter_In in Hh. destruct Hh as [Hh Ih]. destruct (F2_in_right _ _ _ _ F Hh) as (h & I & C). rewrite (corrected_inside m dv R h h' C) in Ih.
        destruct (Hc h I Ih) as (c & C1 & C2 & C3 & C4). destruct (F2_in_left _ _ _ _ F C1) as (c' & D1 & D). exists c'. split; [apply filter_In; split; [assumption|now rewrite (corrected_inside m dv R c c' D)]|].
        destruct C as (_ & Cp & _). destruct D as (_ & Dp & _ & _ & Dq & _). split; [now rewrite Dq|]. unfold eligible in *. rewrite Cp, Dp. assumption.
  Qed.
  (** Beersheba: the same without circle *)
  Theorem C80_beersheba apply_z th sp hits : (apply_z = true -> numbers dvs <> []) -> 0 < th ->
    exists mid dv out, velocity dvs apply_z dv /\ Forall2 (corrected_hit m dv) hits mid /\
      beersheba_hits nearest m dvs method xy false apply_z th sp hits = Ok out /\
      Permutation (map place out) (map (moved dv) (filter (above th) hits)) /\
      ((forall b mu, In b m -> kb_mu b = Some mu -> 0 < mu) -> (forall h, In h hits -> 0 <= val (hE h)) ->
       (forall h, In h hits -> exists c, In c hits /\ th <= hQ c /\ eligible sp h c) ->
       kept_energy th mid out hE /\ kept_energy th mid out hEc).
  Proof.
    intros V T. destruct (C80_corrected nearest griddata m dvs method xy apply_z hits U V) as (mid & dv & E & Hv & F). exists mid, dv. unfold beersheba_hits. rewrite E. cbn [snd rbind]. eexists. split; [assumption|]. split; [assumption|]. split; [reflexivity|]. split.
    - rewrite threshold_merge_places by assumption. rewrite (corrected_places m dv hits mid _ F); [apply Permutation_refl|intros h h' C; apply (corrected_above m dv th h h' C)].
    - intros Hm He Hc. apply thresholder_energy; [assumption| |].
      + intros h' Hh. destruct (F2_in_right _ _ _ _ F Hh) as (h & I & C). apply (corrected_energies m dv h h' Hm C). now apply He.
      + intros h' Hh. destruct (F2_in_right _ _ _ _ F Hh) as (h & I & C). destruct (Hc h I) as (c & C1 & C3 & C4). destruct (F2_in_left _ _ _ _ F C1) as (c' & D1 & D). exists c'. split; [assumption|].
        destruct C as (_ & Cp & _). destruct D as (_ & Dp & _ & _ & Dq & _). split; [now rewrite Dq|]. unfold eligible in *. rewrite Cp, Dp. assumption.
  Qed.
End Event.

(** ---- what does not hold ---- *)
Definition bin_at (t x mu : Q) : kbin := {| kb_k := 0; kb_dt := t; kb_x := x; kb_y := 0; kb_mu := Some mu |}.
Definition map_ex : list kbin := [bin_at 10 0 4155; bin_at 30 0 8310; bin_at 10 100 2770].
Definition hit_ex (x z q e : Q) : hit := {| hmeta := 7; npeak := 0; hX := x; hY := 0; hZ := z; hQ := q; hE := Some e; hEc := Some (-1) |}.
Definition hits_ex : list hit := [hit_ex 5 10 20 100; hit_ex 5 30 8 50; hit_ex 90 10 30 400; hit_ex 0 31 3 10].
Lemma map_ex_usable : usable_map map_ex Maximum None.
Proof.
  split; [exists (bin_at 10 0 4155); split; [now left|discriminate]|]. split; [|exists 8310; split; [reflexivity|lra]].
  intros b mu [<-|[<-|[<-|[]]]] E; injection E as <-; lra.
Qed.
Definition red (h : hit) : Q * Q * Q * option Q * option Q := (hX h, Qred (hZ h), hQ h, option_map Qred (hE h), option_map Qred (hEc h)).
Example C80_example : (let (frame, out) := correct first_nearest map_ex [Some 1; None; Some 3; Some 2] Maximum None false true hits_ex in
  match out with Ok out => (map red frame, map red out) | Err _ => ([], []) end) =
  let l := [(5, 20, 20, Some 100, Some (1 # 1000)); (5, 60, 8, Some 50, Some (1 # 4000)); (90, 20, 30, Some 400, Some (3 # 500)); (0, 62, 3, Some 10, Some (1 # 20000))] in (l, l).
Proof. vm_compute. reflexivity. Qed.
(** the hypotheses of the theorems are met *)
Lemma C80_hypotheses : takes_nearest first_nearest /\ usable_map map_ex Maximum None /\ numbers [Some 1; None; Some 3; Some 2] <> [] /\
  (forall b mu, In b map_ex -> kb_mu b = Some mu -> 0 < mu) /\ (forall h, In h hits_ex -> 0 <= val (hE h)) /\
  (forall h, In h hits_ex -> inside 50 h = true -> exists c, In c hits_ex /\ inside 50 c = true /\ 10 <= hQ c /\ eligible true h c).
Proof.
  split; [apply first_nearest_ok|]. split; [apply map_ex_usable|]. split; [discriminate|]. split; [|split].
  - intros b mu [<-|[<-|[<-|[]]]] E; injection E as <-; lra.
  - intros h [<-|[<-|[<-|[<-|[]]]]]; cbn; lra.
  - intros h [<-|[<-|[<-|[<-|[]]]]] I; try discriminate I; exists (hit_ex 5 10 20 100); (split; [now left|]; split; [reflexivity|]; split; [cbn; lra|intros _; reflexivity]).
Qed.
Example C80_example_event : (match esmeralda_hits first_nearest map_ex [Some 2] Maximum None false true 50 10 true hits_ex with Ok out => map (fun h => (hX h, Qred (hZ h), hQ h)) out | Err _ => [] end) = [(5, 20, 20)].
Proof. vm_compute. reflexivity. Qed.
(** "Input data is not modified" *)
Theorem C80_input_refuted : exists m hits, usable_map m Maximum None /\ fst (correct first_nearest m [] Maximum None false false hits) <> hits.
Proof. exists map_ex, hits_ex. split; [apply map_ex_usable|]. vm_compute. discriminate. Qed.
(** so correcting the same frame again takes the positions along the drift for drift times *)
Theorem C80_twice_refuted : exists m hits dvs once twice, usable_map m Maximum None /\
  snd (correct first_nearest m dvs Maximum None false true hits) = Ok once /\
  snd (correct first_nearest m dvs Maximum None false true (fst (correct first_nearest m dvs Maximum None false true hits))) = Ok twice /\
  exists h h', nth_error once 0 = Some h /\ nth_error twice 0 = Some h' /\ val (hEc h') * 2 == val (hEc h).
Proof. exists map_ex, [hit_ex 0 10 20 100], [Some 3]. eexists _, _. split; [apply map_ex_usable|]. split; [vm_compute; reflexivity|]. split; [vm_compute; reflexivity|]. eexists _, _. split; [reflexivity|]. split; [reflexivity|]. vm_compute. reflexivity. Qed.
(** the position of an empty hit is outside every circle of a detector, so the energy of an empty hit is lost in Esmeralda *)
Theorem C80_empty_hits_lost R h : 0 <= R <= 999999 -> hX h == NN -> hY h == NN -> inside R h = false.
Proof. intros [H1 H2] X Y. unfold inside. destruct (Qltb_spec (hX h * hX h + hY h * hY h) (R * R)) as [C|C]; [|reflexivity]. exfalso. rewrite X, Y in C. assert (R * R <= 999999 * 999999) by (apply Qmult_le_compat_nonneg; lra). unfold NN in C. lra. Qed.
Print Assumptions C80_corrected.
Print Assumptions C80_temp.
Print Assumptions C80_dropper.
Print Assumptions C80_event.
Print Assumptions C80_beersheba.
Print Assumptions C80_input_refuted.
Print Assumptions C80_twice_refuted.
Print Assumptions C80_empty_hits_lost.
Print Assumptions C80_hypotheses.
