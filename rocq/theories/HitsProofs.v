(** Lemmas on sharing, merging and thresholding of hits *)
From Verif Require Import Base PeaksModel PeaksMore HitsModel HitsSpec BuffersEvent.
Local Open Scope Q_scope.

Lemma eps_pos : 0 < EPSILON. Proof. reflexivity. Qed.

Lemma nansum_total col l : nansum (map col l) = total col l.
Proof. unfold nansum, total. now rewrite sumF_map. Qed.

(** ** merging *)
Lemma is_nn_iff h : is_nn h = true <-> NNhit h.
Proof. apply Qeqb_eq. Qed.
Lemma is_nn_not h : negb (is_nn h) = true <-> ~ NNhit h.
Proof. rewrite negb_true_iff. rewrite <- is_nn_iff. destruct (is_nn h); split; congruence. Qed.
Lemma candidate_iff sp nn h : candidate sp nn h = true <-> eligible sp nn h.
Proof.
  unfold candidate, eligible. destruct sp; cbn [negb orb].
  - rewrite Nat.eqb_eq. intuition.
  - intuition discriminate.
Qed.
Lemma min_list_spec l : l <> [] -> exists x, In x l /\ min_list l == x /\ forall y, In y l -> min_list l <= y.
Proof.
  destruct l as [|a l]; [easy|intros _]. cbn [min_list]. revert a; induction l as [|b l IH]; intros a; cbn [fold_left].
  - exists a. split; [now left|]. split; [reflexivity|]. intros y [<-|[]]. lra.
  - destruct (IH (Qmin a b)) as (x & Hx & Ex & Hmin).
    destruct (Q.min_spec a b) as [[L E]|[L E]].
    + exists (if Qeqb x a then a else x). split.
      * destruct (Qeqb_spec x a); [now left|]. destruct Hx as [<-|Hx]; [congruence || (exfalso; lra)|]. right. now right.
      * split.
        -- destruct (Qeqb_spec x a); lra.
        -- pose proof (Hmin _ (or_introl eq_refl)) as H0. intros y [<-|[<-|Hy]]; [lra|lra|]. apply Hmin. now right.
    + exists (if Qeqb x b then b else x). split.
      * destruct (Qeqb_spec x b); [right; now left|]. destruct Hx as [<-|Hx]; [congruence || (exfalso; lra)|]. right. now right.
      * split.
        -- destruct (Qeqb_spec x b); lra.
        -- pose proof (Hmin _ (or_introl eq_refl)) as H0. intros y [<-|[<-|Hy]]; [lra|lra|]. apply Hmin. now right.
Qed.

Lemma dz_min_spec sp rest nn : (exists c, In c rest /\ eligible sp nn c) ->
  exists m, In m rest /\ eligible sp nn m /\ dz_min sp rest nn == dist nn m /\
  forall x, In x rest -> eligible sp nn x -> dist nn m <= dist nn x.
Proof.
  intros (c & Hc & Ec). unfold dz_min. set (l := map _ _).
  assert (Hl : l <> []).
  { intros C. apply map_eq_nil in C. assert (In c (filter (candidate sp nn) rest)) as K by (apply filter_In; split; [assumption|now apply candidate_iff]).
    now rewrite C in K. }
  destruct (min_list_spec l Hl) as (x & Hx & Ex & Hmin). unfold l in Hx. apply in_map_iff in Hx. destruct Hx as (m & <- & Hm).
  apply filter_In in Hm. destruct Hm as [Hm Em]. apply candidate_iff in Em. exists m. split; [assumption|]. split; [assumption|].
  split; [exact Ex|]. intros y Hy Ey. change (Qabs (hZ m - hZ nn)) with (dist nn m) in Ex. rewrite <- Ex. apply Hmin. unfold l. apply in_map_iff. exists y.
  split; [reflexivity|]. apply filter_In. split; [assumption|]. now apply candidate_iff.
Qed.

Lemma dist_nonneg nn h : 0 <= dist nn h. Proof. apply Qabs_nonneg. Qed.

Lemma closest_iff sp rest nn h : (exists c, In c rest /\ eligible sp nn c) ->
  closest sp rest nn h = true <-> receives sp rest nn h.
Proof.
  intros Hc. destruct (dz_min_spec sp rest nn Hc) as (m & Hm & Em & Edz & Hmin).
  unfold closest, receives, isclose. rewrite andb_true_iff, candidate_iff, Qleb_le. fold (dist nn h). split.
  - intros [He Hle]. split; [assumption|]. exists m. do 3 (split; [assumption|]).
    rewrite Edz in Hle. rewrite (Qabs_pos (dist nn m)) in Hle by apply dist_nonneg. exact Hle.
  - intros (He & m' & Hm' & Em' & Hmin' & Hle). split; [assumption|].
    assert (E : dist nn m == dist nn m') by (pose proof (Hmin m' Hm' Em'); pose proof (Hmin' m Hm Em); lra).
    rewrite Edz, (Qabs_pos (dist nn m)) by apply dist_nonneg. rewrite E. exact Hle.
Qed.

Lemma fold_nadd (c : hit -> num) nns : (forall n, In n nns -> finite (c n)) -> forall a,
  exists v, fold_left (fun acc nn => nadd acc (c nn)) nns (Some a) = Some v /\ v == a + sumF (fun n => val (c n)) nns.
Proof.
  induction nns as [|n nns IH]; intros H a; cbn [fold_left].
  - exists a. split; [reflexivity|]. unfold sumF. cbn. lra.
  - destruct (H n (or_introl eq_refl)) as [q Eq]. rewrite Eq. cbn [nadd].
    destruct (IH (fun x Hx => H x (or_intror Hx)) (a + q)) as (v & Ev & Hv). exists v. split; [exact Ev|].
    rewrite Hv, sumF_cons, Eq. cbn [val]. lra.
Qed.

(** each receiver set has a non-zero total *)
Definition shares_ok (sp : bool) (rest : list hit) (col : hit -> num) (nn : hit) : Prop :=
  (exists c, In c rest /\ eligible sp nn c) /\
  ~ total col (filter (closest sp rest nn) rest) == 0.

Lemma correction_finite sp rest col nn h : shares_ok sp rest col nn -> finite (col nn) -> finite (col h) ->
  finite (correction sp rest col nn h).
Proof.
  intros [_ Hn] [a Ea] [b Eb]. unfold correction. destruct (closest sp rest nn h); [|eexists; reflexivity].
  rewrite Ea, Eb. cbn [nmul ndiv]. rewrite nansum_total. destruct (Qeqb_spec (total col (filter (closest sp rest nn) rest)) 0); [contradiction|].
  eexists; reflexivity.
Qed.

Lemma correction_sum sp rest col nn : shares_ok sp rest col nn -> finite (col nn) -> (forall h, In h rest -> finite (col h)) ->
  sumF (fun h => val (correction sp rest col nn h)) rest == val (col nn).
Proof.
  intros [_ Hn] [a Ea] Hf. set (S := total col (filter (closest sp rest nn) rest)) in *.
  transitivity (sumF (fun h => if closest sp rest nn h then val (col h) * (a / S) else 0) rest).
  - apply sumF_ext. intros h Hh. destruct (Hf h Hh) as [b Eb]. unfold correction. destruct (closest sp rest nn h); [|reflexivity].
    rewrite Ea, Eb. cbn [nmul ndiv]. rewrite nansum_total. fold S. destruct (Qeqb_spec S 0); [contradiction|]. cbn [val]. field. assumption.
  - rewrite <- sumF_filter_if, sumF_scale_r. change (sumF _ _) with S. rewrite Ea. cbn [val]. field. assumption.
Qed.

Lemma corrected_spec sp rest nns col h :
  (forall n, In n nns -> shares_ok sp rest col n /\ finite (col n)) -> finite (col h) ->
  exists v, corrected sp rest nns col h = Some v /\ v == val (col h) + sumF (fun n => val (correction sp rest col n h)) nns.
Proof.
  intros Hn Hh. unfold corrected. destruct (fold_nadd (fun n => correction sp rest col n h) nns) with (a := 0) as (v & Ev & Hv).
  - intros n Hi. destruct (Hn n Hi). now apply correction_finite.
  - rewrite Ev. destruct Hh as [b Eb]. rewrite Eb. cbn [nadd val]. eexists. split; [reflexivity|]. rewrite Hv. lra.
Qed.

Lemma corrected_total sp rest nns col :
  (forall n, In n nns -> shares_ok sp rest col n /\ finite (col n)) -> (forall h, In h rest -> finite (col h)) ->
  sumF (fun h => val (corrected sp rest nns col h)) rest == total col rest + total col nns.
Proof.
  intros Hn Hf.
  transitivity (sumF (fun h => val (col h) + sumF (fun n => val (correction sp rest col n h)) nns) rest).
  - apply sumF_ext. intros h Hh. destruct (corrected_spec sp rest nns col h Hn (Hf h Hh)) as (v & -> & Hv). exact Hv.
  - rewrite sumF_plus. fold (total col rest). apply Qplus_comp; [reflexivity|]. rewrite sumF_swap. unfold total. apply sumF_ext.
    intros n Hi. destruct (Hn n Hi). now apply correction_sum.
Qed.

(** a hit that is not closest to any NN hit keeps its energy *)
Lemma corrected_untouched sp rest nns col h :
  (forall n, In n nns -> closest sp rest n h = false) -> finite (col h) ->
  exists v, corrected sp rest nns col h = Some v /\ v == val (col h).
Proof.
  intros Hn [b Eb]. unfold corrected. destruct (fold_nadd (fun n => correction sp rest col n h) nns) with (a := 0) as (v & Ev & Hv).
  - intros n Hi. unfold correction. rewrite (Hn n Hi). eexists; reflexivity.
  - rewrite Ev, Eb. cbn [nadd val]. eexists. split; [reflexivity|]. rewrite Hv.
    rewrite sumF_zero; [lra|]. intros n Hi. unfold correction. rewrite (Hn n Hi). reflexivity.
Qed.

(** ** thresholds *)
Lemma total_app col l m : total col (l ++ m) == total col l + total col m.
Proof. apply sumF_app. Qed.
Lemma total_cons col h l : total col (h :: l) == val (col h) + total col l.
Proof. unfold total. rewrite sumF_cons. reflexivity. Qed.

Lemma sumF_ge l th : 0 < th -> (forall h, In h l -> th <= hQ h) -> l <> [] -> 0 < sumF hQ l.
Proof.
  intros Ht H Hl. destruct l as [|a l]; [easy|]. rewrite sumF_cons. pose proof (H a (or_introl eq_refl)).
  assert (0 <= sumF hQ l); [|lra]. apply sumF_nonneg. intros h Hh. specialize (H h (or_intror Hh)). lra.
Qed.

Lemma apply_threshold_spec th s : 0 < th -> thresholded th s (apply_threshold th s).
Proof.
  intros Ht. unfold thresholded, apply_threshold. set (sel := filter _ s). cbv zeta.
  assert (Hsel : forall h, In h sel -> th <= hQ h) by (intros h Hh; apply filter_In in Hh; now apply Qleb_le).
  destruct sel as [|h0 sel'] eqn:Es.
  - right. destruct s as [|first rest]; [right; split; reflexivity|]. left. split; [reflexivity|].
    exists first, rest. eexists. split; [reflexivity|]. split; [reflexivity|]. cbn [empty_hit hmeta npeak hZ hX hY hQ hE hEc].
    do 6 (split; [reflexivity|]). rewrite !nansum_total. split; eexists; split; reflexivity.
  - left. split; [discriminate|]. rewrite <- Es in *. clear Es h0 sel'.
    assert (Hne : sel <> [] \/ sel = []) by (destruct sel; [now right|left; discriminate]).
    rewrite !nansum_total. set (qs := sumF hQ sel) in *. pose proof eps_pos as He.
    assert (Hq : 0 <= qs).
    { destruct Hne as [Hne|Hne]; [apply Qlt_le_weak; now apply (sumF_ge sel th)|]. unfold qs. rewrite Hne. apply Qle_refl. }
    assert (Hd : ~ qs + EPSILON == 0) by lra.
    assert (F : Qeqb (qs + EPSILON) 0 = false) by (destruct (Qeqb_spec (qs + EPSILON) 0); [contradiction|reflexivity]).
    unfold ndiv. rewrite F. cbn [nmul].
    split; [|split].
    + clear -Hd. clearbody qs sel. induction sel as [|h sel IH]; constructor; [|assumption]. split; [repeat split|]. cbn [hE hEc].
      split; eexists; (split; [reflexivity|]); field; assumption.
    + unfold total at 1. rewrite sumF_map. cbn [hE val]. rewrite sumF_ext with (g := fun h => hQ h * ((total hE s + EPSILON) / (qs + EPSILON))).
      2:{ intros; field; assumption. }
      rewrite sumF_scale_r. fold qs. field. assumption.
    + unfold total at 1. rewrite sumF_map. cbn [hEc val]. rewrite sumF_ext with (g := fun h => hQ h * ((total hEc s + EPSILON) / (qs + EPSILON))).
      2:{ intros; field; assumption. }
      rewrite sumF_scale_r. fold qs. field. assumption.
Qed.

(** ** grouping by Z *)
Lemma insert_q_in x y l : (exists z, In z (insert_q x l) /\ z == y) <-> y == x \/ exists z, In z l /\ z == y.
Proof.
  induction l as [|a l IH]; cbn [insert_q].
  - split; [intros (z & [<-|[]] & E); left; lra|]. intros [E|(z & [] & _)]. exists x. split; [now left|lra].
  - destruct (Qltb_spec x a) as [L|L].
    + split.
      * intros (z & [<-|Hz] & E); [left; lra|right; eauto].
      * intros [E|(z & Hz & E)]; [exists x; split; [now left|lra]|exists z; split; [now right|assumption]].
    + destruct (Qeqb_spec x a) as [E0|N0].
      * split; [intros H; now right|]. intros [E|H]; [|assumption]. exists a. split; [now left|lra].
      * split.
        -- intros (z & [<-|Hz] & E); [right; exists a; split; [now left|assumption]|].
           destruct (proj1 IH (ex_intro _ z (conj Hz E))) as [K|(w & Hw & K)]; [now left|right; exists w; split; [now right|assumption]].
        -- intros [E|(z & [<-|Hz] & E)].
           ++ destruct (proj2 IH (or_introl E)) as (w & Hw & K). exists w. split; [now right|assumption].
           ++ exists a. split; [now left|assumption].
           ++ destruct (proj2 IH (or_intror (ex_intro _ z (conj Hz E)))) as (w & Hw & K). exists w. split; [now right|assumption].
Qed.
Lemma insert_q_sorted x l : StronglySorted Qlt l -> StronglySorted Qlt (insert_q x l).
Proof.
  induction 1 as [|a l H IH F]; cbn [insert_q]; [repeat constructor|].
  destruct (Qltb_spec x a) as [L|L].
  - constructor; [constructor; assumption|]. rewrite Forall_forall in *. intros y [<-|Hy]; [assumption|]. specialize (F y Hy). lra.
  - destruct (Qeqb_spec x a); [constructor; assumption|]. constructor; [assumption|]. rewrite Forall_forall in *. intros y Hy.
    destruct (proj1 (insert_q_in x y l)) as [E|(w & Hw & E)]; [exists y; split; [assumption|reflexivity]| |].
    + lra.
    + specialize (F w Hw). lra.
Qed.
Lemma distinct_spec l : StronglySorted Qlt (distinct_q l) /\ forall y, (exists z, In z (distinct_q l) /\ z == y) <-> exists z, In z l /\ z == y.
Proof.
  induction l as [|a l [I1 I2]]; [split; [constructor|reflexivity]|]. cbn [distinct_q fold_right]. split; [now apply insert_q_sorted|].
  intros y. rewrite insert_q_in. unfold distinct_q in I2. rewrite I2. split.
  - intros [E|(z & Hz & E)]; [exists a; split; [now left|lra]|exists z; split; [now right|assumption]].
  - intros (z & [<-|Hz] & E); [left; lra|right; eauto].
Qed.

Lemma slice_in z l h : In h (slice_at z l) <-> In h l /\ hZ h == z.
Proof. unfold slice_at. now rewrite filter_In, Qeqb_eq. Qed.
Lemma slice_app z l m : slice_at z (l ++ m) = slice_at z l ++ slice_at z m.
Proof. apply filter_app. Qed.
Lemma slice_self z l : (forall h, In h l -> hZ h == z) -> slice_at z l = l.
Proof.
  induction l as [|a l IH]; intros H; [reflexivity|]. cbn. rewrite (proj2 (Qeqb_eq _ _) (H a (or_introl eq_refl))).
  f_equal. apply IH. intros; apply H; now right.
Qed.
Lemma slice_other z l : (forall h, In h l -> ~ hZ h == z) -> slice_at z l = [].
Proof. intros H. apply filter_none. intros h Hh. destruct (Qeqb_spec (hZ h) z); [|reflexivity]. exfalso. now apply (H h). Qed.
Lemma slice_ext z z' l : z == z' -> slice_at z l = slice_at z' l.
Proof. intros E. apply filter_ext. intros h. now apply Qeqb_comp. Qed.

Lemma apply_threshold_z th s z : (forall h, In h s -> hZ h == z) -> forall h, In h (apply_threshold th s) -> hZ h == z.
Proof.
  intros H h. unfold apply_threshold. destruct (filter _ s) as [|h0 sel'] eqn:Es.
  - destruct s as [|f r]; [easy|]. intros [<-|[]]. cbn. apply H. now left.
  - rewrite <- Es. intros Hh. apply in_map_iff in Hh. destruct Hh as (x & <- & Hx). cbn. apply filter_In in Hx. now apply H.
Qed.

Lemma threshold_slices th hits z : 0 < th ->
  slice_at z (threshold_hits th hits) = apply_threshold th (slice_at z hits).
Proof.
  intros Ht. unfold threshold_hits. destruct (Qleb_spec th 0) as [Hth|_]; [exfalso; lra|].
  destruct (distinct_spec (map hZ hits)) as [Hs Hin].
  assert (K : forall zs, StronglySorted Qlt zs ->
    slice_at z (flat_map (fun z => apply_threshold th (filter (fun h => Qeqb (hZ h) z) hits)) zs) =
    if existsb (fun y => Qeqb y z) zs then apply_threshold th (slice_at z hits) else []).
  { induction 1 as [|y zs _ IH F]; [reflexivity|]. cbn [flat_map existsb]. rewrite slice_app, IH. fold (slice_at y hits).
    pose proof (apply_threshold_z th (slice_at y hits) y ltac:(intros h Hh; now apply slice_in in Hh)) as Hy.
    destruct (Qeqb_spec y z) as [E|N]; cbn [orb].
    - rewrite slice_self by (intros h Hh; rewrite (Hy h Hh); assumption). rewrite (slice_ext y z _ E).
      replace (existsb _ zs) with false; [apply app_nil_r|]. symmetry.
      rewrite Forall_forall in F. destruct (existsb _ zs) eqn:X; [|reflexivity]. apply existsb_exists in X. destruct X as (w & Hw & Ew).
      apply Qeqb_eq in Ew. specialize (F w Hw). lra.
    - rewrite slice_other by (intros h Hh; rewrite (Hy h Hh); assumption). reflexivity. }
  rewrite K by assumption. destruct (existsb _ _) eqn:X; [reflexivity|].
  replace (slice_at z hits) with (@nil hit); [reflexivity|]. symmetry. apply slice_other. intros h Hh E.
  destruct (proj2 (Hin (hZ h))) as (w & Hw & Ew); [exists (hZ h); split; [now apply in_map|reflexivity]|].
  enough (existsb (fun y => Qeqb y z) (distinct_q (map hZ hits)) = true) by congruence.
  apply existsb_exists. exists w. split; [assumption|]. apply Qeqb_eq. lra.
Qed.

Lemma SS_app {A} (R : A -> A -> Prop) l m : StronglySorted R l -> StronglySorted R m ->
  (forall x y, In x l -> In y m -> R x y) -> StronglySorted R (l ++ m).
Proof.
  induction 1 as [|a l H IH F]; intros Hm Hx; [assumption|]. cbn. constructor.
  - apply IH; [assumption|]. intros; apply Hx; [now right|assumption].
  - apply Forall_app. split; [assumption|]. rewrite Forall_forall. intros y Hy. apply Hx; [now left|assumption].
Qed.
Definition byZ (h h' : hit) : Prop := hZ h <= hZ h'.
Lemma threshold_sorted th hits : 0 < th -> StronglySorted byZ (threshold_hits th hits).
Proof.
  intros Ht. unfold threshold_hits. destruct (Qleb_spec th 0) as [C|_]; [exfalso; lra|].
  destruct (distinct_spec (map hZ hits)) as [Hs _]. induction Hs as [|y zs _ IH F]; [constructor|]. cbn [flat_map].
  assert (Hz : forall y h, In h (apply_threshold th (filter (fun h => Qeqb (hZ h) y) hits)) -> hZ h == y).
  { intros y' h Hh. eapply apply_threshold_z; [|exact Hh]. intros x Hx. apply filter_In in Hx. now apply Qeqb_eq. }
  apply SS_app; [|assumption|].
  - assert (K : forall l, (forall h, In h l -> hZ h == y) -> StronglySorted byZ l).
    { induction l as [|a l IHl]; intros Hl; [constructor|]. constructor; [apply IHl; intros; apply Hl; now right|].
      rewrite Forall_forall. intros x Hx. unfold byZ. rewrite (Hl a (or_introl eq_refl)), (Hl x (or_intror Hx)). lra. }
    apply K. apply Hz.
  - intros x x' Hx Hx'. apply in_flat_map in Hx'. destruct Hx' as (w & Hw & Hx'). unfold byZ.
    rewrite (Hz y x Hx), (Hz w x' Hx'). rewrite Forall_forall in F. specialize (F w Hw). lra.
Qed.

(** a list is the concatenation of its slices, up to order *)
Lemma total_slices col l zs : StronglySorted Qlt zs -> (forall h, In h l -> exists z, In z zs /\ z == hZ h) ->
  total col l == sumF (fun z => total col (slice_at z l)) zs.
Proof.
  intros Hs Hin. unfold total, slice_at.
  transitivity (sumF (fun z => sumF (fun h => if Qeqb (hZ h) z then val (col h) else 0) l) zs).
  2:{ apply sumF_ext. intros z _. now rewrite <- sumF_filter_if. }
  rewrite sumF_swap. apply sumF_ext. intros h Hh. destruct (Hin h Hh) as (z & Hz & Ez). clear Hin Hh. revert Hz.
  induction Hs as [|y zs _ IH F]; intros Hz; [easy|]. rewrite sumF_cons. rewrite Forall_forall in F. destruct Hz as [->|Hz].
  - rewrite (proj2 (Qeqb_eq (hZ h) z)) by lra. rewrite sumF_zero; [lra|]. intros w Hw. specialize (F w Hw).
    destruct (Qeqb_spec (hZ h) w); [exfalso; lra|reflexivity].
  - rewrite <- IH by assumption. specialize (F z Hz). destruct (Qeqb_spec (hZ h) y); [exfalso; lra|lra].
Qed.
