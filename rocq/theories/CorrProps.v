(** C38: correction maps and their normalization *)
From Verif Require Import Base Arrays PeaksModel PeaksProofs BuffersProofs WfmModel WfmProps PmapioProofs KrProps CorrModel CorrSpec.
Local Open Scope Q_scope.

(** ---- bins ---- *)
Lemma count_le_seq d n : (d <= n)%nat -> length (filter (fun k => (k <=? d)%nat) (seq 0 (S n))) = S d.
Proof.
  intros H. replace (S n) with (S d + (n - d))%nat by lia. rewrite seq_app, filter_app, app_length.
  rewrite filter_all_in, seq_length by (intros k Hk; apply in_seq in Hk; apply Nat.leb_le; lia).
  rewrite filter_none_in by (intros k Hk; apply in_seq in Hk; apply Nat.leb_gt; lia). cbn; lia.
Qed.
Lemma qn_S k : qn (S k) == qn k + 1.
Proof. unfold qn. rewrite Nat2Z.inj_succ, <- Z.add_1_r, inj_plus. reflexivity. Qed.
Lemma filter_map_swap {A B} (f : A -> B) p l : filter p (map f l) = map f (filter (fun a => p (f a)) l).
Proof. induction l as [|a l IH]; [reflexivity|]. cbn. destruct (p (f a)); cbn; now rewrite IH. Qed.
Lemma digitize_bin a b n x : (0 < n)%nat -> a <= x < b -> exists k, digitize x (linspace a b n) = S k /\ in_bin a b n k x.
Proof.
  intros Hn [H1 H2]. assert (Pn : 0 < qn n) by now apply qn_pos. set (w := (b - a) / qn n). assert (W : 0 < w) by (unfold w; apply Qlt_shift_div_l; lra). assert (Wn : w * qn n == b - a) by (unfold w; field; lra).
  set (q := (x - a) / w). assert (Q1 : q * w == x - a) by (unfold q; field; lra).
  assert (Q0 : 0 <= q) by (unfold q; apply Qle_shift_div_l; lra). assert (Qn : q < qn n) by (unfold q; apply Qlt_shift_div_r; [lra|]; lra).
  pose proof (proj1 (Qfloor_spec q (Qfloor q)) eq_refl) as [F1 F2]. assert (F0 : (0 <= Qfloor q)%Z) by (apply (Qfloor_resp_le 0 q) in Q0; exact Q0).
  set (d := Z.to_nat (Qfloor q)). assert (D : inject_Z (Qfloor q) = qn d) by (unfold qn, d; now rewrite Z2Nat.id).
  rewrite inj_plus in F2. rewrite D in F1, F2. change (inject_Z 1) with 1 in F2.
  assert (Dn : (d < n)%nat). { assert (L : qn d < qn n) by lra. unfold qn in L. apply inj_lt_inv in L. lia. }
  assert (E : forall k, Qle_bool (a + qn k * (b - a) / qn n) x = (k <=? d)%nat).
  { intros k. assert (V : a + qn k * (b - a) / qn n == a + qn k * w) by (unfold w; field; lra). destruct (Nat.leb_spec k d) as [L|L].
    - apply Qleb_le. rewrite V. apply qn_le in L. nra.
    - apply Qleb_gt. rewrite V. assert (L' : (S d <= k)%nat) by lia. apply qn_le in L'. rewrite qn_S in L'. nra. }
  exists d. split.
  - unfold digitize, linspace. rewrite filter_map_swap, map_length. rewrite <- (count_le_seq d n) by lia. f_equal. apply filter_ext. intros k. apply E.
  - split; [assumption|]. fold w. split; [nra|]. rewrite qn_S. nra.
Qed.
Lemma in_range_iff x a b : in_range x a b = true <-> a <= x < b.
Proof. unfold in_range. rewrite andb_true_iff, Qleb_le, Qltb_lt. reflexivity. Qed.
Lemma in_bin_unique a b n k k' x : in_bin a b n k x -> in_bin a b n k' x -> k = k'.
Proof.
  intros (H1 & H2 & H3) (K1 & K2 & K3). assert (Pn : 0 < qn n) by (apply qn_pos; lia). set (w := (b - a) / qn n) in *. destruct (Nat.lt_trichotomy k k') as [L|[L|L]]; [|assumption|].
  - exfalso. assert (L' : (S k <= k')%nat) by lia. apply qn_le in L'. rewrite qn_S in *. nra.
  - exfalso. assert (L' : (S k' <= k)%nat) by lia. apply qn_le in L'. rewrite qn_S in *. nra.
Qed.

Lemma coefficient_ok i m xy : (0 < nx i)%nat -> (0 < ny i)%nat -> shape i m -> exists v, coefficient i m xy = Ok v /\ looked_up i m xy v.
Proof.
  intros Hx Hy [S1 S2]. unfold coefficient. destruct xy as [[x|] [y|]].
  2-4: exists None; split; [reflexivity|]; right; split; [|reflexivity]; cbn; intros [(q & E & _) (q' & E' & _)]; discriminate.
  destruct (in_range x (xmin i) (xmax i)) eqn:Ex; cbn [andb].
  2: { exists None. split; [reflexivity|]. right. split; [|reflexivity]. cbn. intros [(q & E & Q) _]. injection E as <-. apply in_range_iff in Q. congruence. }
  destruct (in_range y (ymin i) (ymax i)) eqn:Ey.
  2: { exists None. split; [reflexivity|]. right. split; [|reflexivity]. cbn. intros [_ (q & E & Q)]. injection E as <-. apply in_range_iff in Q. congruence. }
  apply in_range_iff in Ex, Ey. destruct (digitize_bin _ _ (nx i) x Hx Ex) as (kx & Dx & Bx). destruct (digitize_bin _ _ (ny i) y Hy Ey) as (ky & Dy & By).
  unfold x_bins, y_bins. rewrite Dx, Dy. replace (S ky - 1)%nat with ky by lia. replace (S kx - 1)%nat with kx by lia.
  assert (Ly : (ky < length m)%nat) by (rewrite S1; apply By). rewrite (nth_error_nth' m [] Ly).
  assert (Lx : (kx < length (nth ky m []))%nat). { rewrite Forall_forall in S2. rewrite S2 by now apply nth_In. apply Bx. }
  rewrite (nth_error_nth' _ None Lx). exists (cell m ky kx). split; [reflexivity|]. left. exists x, y, kx, ky. auto.
Qed.
(** No position makes the lookup fail, and it gives the content of the bin of the position. *)
Theorem C38_lookup i m xs ys : (0 < nx i)%nat -> (0 < ny i)%nat -> shape i m -> length xs = length ys ->
  exists out, get_maps_coefficient i m xs ys = Ok out /\ Forall2 (looked_up i m) (combine xs ys) out.
Proof.
  intros Hx Hy S L. unfold get_maps_coefficient. rewrite L, Nat.eqb_refl. apply rmap_all_forall2. intros xy _. now apply coefficient_ok.
Qed.
Print Assumptions C38_lookup.
(** The result is nan exactly outside the map when the map has no nan; a position is in one bin only. *)
Theorem C38_nan_outside i m xy v : (0 < nx i)%nat -> (0 < ny i)%nat -> shape i m -> Forall (Forall (fun c => c <> None)) m -> looked_up i m xy v ->
  (v = None <-> ~ (inside (fst xy) (xmin i) (xmax i) /\ inside (snd xy) (ymin i) (ymax i))).
Proof.
  intros Hx Hy [S1 S2] F [(x & y & kx & ky & -> & Bx & By & ->)|[H ->]]; [|tauto]. cbn [fst snd].
  assert (Ly : (ky < length m)%nat) by (rewrite S1; apply By). assert (R : In (nth ky m []) m) by now apply nth_In. rewrite Forall_forall in F, S2. specialize (F _ R). specialize (S2 _ R).
  assert (Lx : (kx < length (nth ky m []))%nat) by (rewrite S2; apply Bx). split.
  - intros E. exfalso. rewrite Forall_forall in F. apply (F (cell m ky kx)); [apply nth_In; exact Lx|exact E].
  - intros H. exfalso. apply H. assert (P : forall a b n k q, in_bin a b n k q -> inside (Some q) a b).
    { intros a b n k q (K1 & K2 & K3). exists q. split; [reflexivity|]. assert (Pn : 0 < qn n) by (apply qn_pos; lia). assert (W : (b - a) / qn n * qn n == b - a) by (field; lra).
      assert (L0 : 0 <= qn k) by (change 0 with (qn 0); apply qn_le; lia). assert (L1 : qn (S k) <= qn n) by (apply qn_le; lia). rewrite qn_S in *. set (w := (b - a) / qn n) in *. assert (0 < w) by nra. split; nra. }
    split; eapply P; eassumption.
Qed.
Print Assumptions C38_nan_outside.

Definition info_ex : mapinfo := {| xmin := -(4 # 1); xmax := 4; ymin := 0; ymax := 2; nx := 2; ny := 1 |}.
Definition grid_ex : grid := [[Some 5; None]].
Example C38_lookup_ex : exists out, get_maps_coefficient info_ex grid_ex [Some (-(4 # 1)); Some 4; Some 3; None] [Some 1; Some 1; Some 1; Some 1] = Ok out /\ out = [Some 5; None; None; None].
Proof. eexists. split; [vm_compute; reflexivity|reflexivity]. Qed.
Example C38_lookup_hyps : (0 < nx info_ex)%nat /\ (0 < ny info_ex)%nat /\ shape info_ex grid_ex /\ looked_up info_ex grid_ex (Some (-(4 # 1)), Some 1) (Some 5).
Proof.
  repeat split; cbn; try lia; [now repeat constructor|]. left. exists (-(4 # 1)), 1, 0%nat, 0%nat. repeat split; cbn; try lia; vm_compute; congruence.
Qed.

(** ---- normalization ---- *)
Lemma present_numbers l : present l = numbers l.
Proof. induction l as [|[q|] l IH]; cbn; [reflexivity|now f_equal|assumption]. Qed.
Lemma in_numbers q l : In q (numbers l) <-> In (Some q) l.
Proof. induction l as [|[p|] l IH]; cbn; [tauto| |]; rewrite IH; [|intuition discriminate]. split; (intros [->|H]; [now left|now right]) || (intros [E|H]; [injection E as ->; now left|now right]). Qed.
Lemma fold_max x l : let m := fold_left (fun a b => if Qltb a b then b else a) l x in In m (x :: l) /\ forall y, In y (x :: l) -> y <= m.
Proof.
  revert x. induction l as [|z l IH]; intros x; cbn [fold_left]; [split; [now left|intros y [->|[]]; lra]|]. destruct (IH (if Qltb x z then z else x)) as [I1 I2]. cbn beta. split.
  - destruct I1 as [E|I1]; [|right; now right]. rewrite <- E. destruct (Qltb x z); [right; now left|now left].
  - assert (L : x <= (if Qltb x z then z else x) /\ z <= (if Qltb x z then z else x)) by (destruct (Qltb_spec x z); lra). intros y [->|[->|H]].
    + eapply Qle_trans; [apply L|]. apply I2. now left.
    + eapply Qle_trans; [apply L|]. apply I2. now left.
    + apply I2. now right.
Qed.
Lemma max_greatest l : match maxQ l with Some m => is_greatest l m | None => l = [] end.
Proof. destruct l as [|x l]; [reflexivity|]. cbn [maxQ]. apply fold_max. Qed.
Lemma mean_is l : l <> [] -> is_mean l (meanQ l).
Proof. intros H. split; [assumption|]. unfold meanQ. fold (qn (length l)). field. assert (0 < qn (length l)) by (apply qn_pos; destruct l; [contradiction|cbn; lia]). lra. Qed.
Lemma median_is l : l <> [] -> is_median l (median l).
Proof.
  intros H. split; [assumption|]. exists (sortQ l). split; [apply sortQ_perm|]. split; [apply sortQ_sorted|]. assert (L : length (sortQ l) = length l) by apply Permutation_length, sortQ_perm. rewrite L. unfold median.
  destruct (Nat.even (length l)) eqn:E.
  - apply Nat.even_spec in E. destruct E as [h E]. right. exists h. split; [assumption|]. rewrite E. replace (2 * h)%nat with (h * 2)%nat by lia. rewrite Nat.div_mul by lia. reflexivity.
  - assert (O : Nat.odd (length l) = true) by (unfold Nat.odd; now rewrite E). apply Nat.odd_spec in O. destruct O as [h O]. left. exists h. split; [assumption|]. rewrite O. f_equal. replace (2 * h + 1)%nat with (1 + h * 2)%nat by lia. rewrite Nat.div_add by lia. reflexivity.
Qed.
Lemma nanmean_is l : ignoring_nan is_mean l (nanmean l).
Proof. unfold nanmean. rewrite present_numbers. destruct (numbers l) as [|q t] eqn:E; cbn [ignoring_nan]; [assumption|]. rewrite E. apply mean_is. discriminate. Qed.
Lemma nanmedian_is l : ignoring_nan is_median l (nanmedian l).
Proof. unfold nanmedian. rewrite present_numbers. destruct (numbers l) as [|q t] eqn:E; cbn [ignoring_nan]; [assumption|]. rewrite E. apply median_is. discriminate. Qed.
Lemma max_is l : ignoring_nan is_greatest l (maxQ (present l)).
Proof. rewrite present_numbers. pose proof (max_greatest (numbers l)) as M. destruct (maxQ (numbers l)); exact M. Qed.
Lemma strict_median_is l : with_nan is_median l (strict_median l).
Proof.
  unfold strict_median. destruct (existsb _ l) eqn:E.
  - cbn. right. apply existsb_exists in E. destruct E as ([q|] & H1 & H2); [discriminate|assumption].
  - assert (N : ~ In None l). { intros H. rewrite <- not_true_iff_false in E. apply E. apply existsb_exists. exists None. auto. }
    rewrite present_numbers. destruct (numbers l) as [|q t] eqn:En; cbn [with_nan].
    + left. destruct l as [|[q|] l]; [reflexivity|discriminate|exfalso; apply N; now left].
    + split; [assumption|]. rewrite En. apply median_is. discriminate.
Qed.

Lemma length_centers l : length (shift_to_bin_centers l) = (length l - 1)%nat.
Proof. induction l as [|a [|b l] IH]; [reflexivity|reflexivity|]. cbn [shift_to_bin_centers length] in *. rewrite IH. lia. Qed.
Lemma nth_centers l k : (S k < length l)%nat -> nth k (shift_to_bin_centers l) 0 = nth k l 0 + (nth (S k) l 0 - nth k l 0) * (1 # 2).
Proof.
  revert k. induction l as [|a [|b l] IH]; intros k H; [cbn in H; lia|cbn in H; lia|]. destruct k as [|k]; [reflexivity|].
  change (shift_to_bin_centers (a :: b :: l)) with (a + (b - a) * (1 # 2) :: shift_to_bin_centers (b :: l)). cbn [nth]. rewrite IH by (cbn in *; lia). reflexivity.
Qed.
Lemma nth_linspace a b n k : (k <= n)%nat -> nth k (linspace a b n) 0 = a + qn k * (b - a) / qn n.
Proof.
  intros H. unfold linspace. rewrite nth_indep with (d' := (fun k => a + qn k * (b - a) / qn n) 0%nat) by (rewrite map_length, seq_length; lia).
  rewrite (map_nth (fun k => a + qn k * (b - a) / qn n)), seq_nth by lia. reflexivity.
Qed.
Lemma length_bins a b n : length (shift_to_bin_centers (linspace a b n)) = n.
Proof. rewrite length_centers. unfold linspace. rewrite map_length, seq_length. lia. Qed.
Lemma centers_spec a b n k : (k < n)%nat -> nth k (shift_to_bin_centers (linspace a b n)) 0 == bin_centre a b n k.
Proof.
  intros H. assert (P : 0 < qn n) by (apply qn_pos; lia). rewrite nth_centers by (unfold linspace; rewrite map_length, seq_length; lia). rewrite !nth_linspace by lia. unfold bin_centre. rewrite qn_S. field. lra.
Qed.
Lemma pick_where_spec {A} (mask : list bool) (l : list A) d : length mask = length l ->
  pick_where mask l = flat_map (fun k => if nth k mask false then [nth k l d] else []) (seq 0 (length l)).
Proof.
  revert mask. induction l as [|a l IH]; intros [|b mask] H; try discriminate; [reflexivity|]. cbn [length seq flat_map nth]. rewrite <- seq_shift, flat_map_concat_map, map_map, <- flat_map_concat_map. cbn [nth]. rewrite <- IH by (cbn in H; lia).
  unfold pick_where. cbn [combine filter fst]. destruct b; reflexivity.
Qed.
Lemma flat_map_ext_in' {A B} (f g : A -> list B) l : (forall a, In a l -> f a = g a) -> flat_map f l = flat_map g l.
Proof. induction l as [|a l IH]; intros H; [reflexivity|]. cbn. rewrite H by now left. rewrite IH; [reflexivity|]. intros; apply H; now right. Qed.
Lemma in_range_proper x y a b : x == y -> in_range x a b = in_range y a b.
Proof. intros E. destruct (in_range y a b) eqn:H. - apply in_range_iff in H. apply in_range_iff. lra. - apply not_true_iff_false in H. apply not_true_iff_false. intros K. apply H. apply in_range_iff in K. apply in_range_iff. lra. Qed.
Lemma nth_map_false {A} (f : A -> bool) l k d : (k < length l)%nat -> nth k (map f l) false = f (nth k l d).
Proof. intros H. rewrite nth_indep with (d' := f d) by now rewrite map_length. now rewrite map_nth. Qed.

Lemma flat_map_if {A B} (b : bool) (l : list A) (f : A -> list B) : flat_map f (if b then l else []) = if b then flat_map f l else [].
Proof. now destruct b. Qed.
Lemma flat_map_flat_map {A B C} (f : A -> list B) (g : B -> list C) l : flat_map g (flat_map f l) = flat_map (fun a => flat_map g (f a)) l.
Proof. induction l as [|a l IH]; [reflexivity|]. cbn. now rewrite flat_map_app, IH. Qed.
Lemma flat_map_nil {A B} (l : list A) : flat_map (fun _ => @nil B) l = [].
Proof. now induction l. Qed.

Lemma rectangle_values i m x0 x1 y0 y1 : shape i m ->
  concat (map (pick_where (map (fun x => in_range x x0 x1) (shift_to_bin_centers (x_bins i)))) (pick_where (map (fun y => in_range y y0 y1) (shift_to_bin_centers (y_bins i))) m)) = region_values (in_rectangle x0 x1 y0 y1) i m.
Proof.
  intros [S1 S2]. unfold region_values. rewrite <- flat_map_concat_map. rewrite (pick_where_spec _ _ []) by (rewrite map_length; unfold y_bins; now rewrite length_bins).
  rewrite flat_map_flat_map, S1. apply flat_map_ext_in'. intros ky Hy. apply in_seq in Hy. rewrite Nat.add_0_l in Hy. rewrite flat_map_if. unfold y_bins. rewrite nth_map_false with (d := 0) by (rewrite length_bins; lia). rewrite (in_range_proper _ _ _ _ (centers_spec _ _ _ _ (proj2 Hy))).
  assert (E : forall kx, in_rectangle x0 x1 y0 y1 (bin_centre (xmin i) (xmax i) (nx i) kx) (bin_centre (ymin i) (ymax i) (ny i) ky) =
    in_range (bin_centre (xmin i) (xmax i) (nx i) kx) x0 x1 && in_range (bin_centre (ymin i) (ymax i) (ny i) ky) y0 y1) by reflexivity.
  destruct (in_range (bin_centre (ymin i) (ymax i) (ny i) ky) y0 y1).
  - cbn [flat_map]. rewrite app_nil_r. assert (L : length (nth ky m []) = nx i) by (rewrite Forall_forall in S2; apply S2, nth_In; lia). rewrite (pick_where_spec _ _ None) by (rewrite map_length; unfold x_bins; now rewrite length_bins).
    rewrite L. apply flat_map_ext_in'. intros kx Hx. apply in_seq in Hx. rewrite Nat.add_0_l in Hx. rewrite E, andb_true_r. unfold x_bins. rewrite nth_map_false with (d := 0) by (rewrite length_bins; lia). rewrite (in_range_proper _ _ _ _ (centers_spec _ _ _ _ (proj2 Hx))). reflexivity.
  - rewrite (flat_map_ext_in' _ (fun _ => [])); [now rewrite flat_map_nil|]. intros kx _. now rewrite E, andb_false_r.
Qed.
Lemma circle_values i m x0 y0 r : shape i m ->
  concat (map (fun yr => pick_where (map (fun x => in_range ((x - x0) * (x - x0) + (fst yr - y0) * (fst yr - y0)) 0 (r * r)) (shift_to_bin_centers (x_bins i))) (snd yr)) (combine (shift_to_bin_centers (y_bins i)) m)) = region_values (in_circle x0 y0 r) i m.
Proof.
  intros [S1 S2]. unfold region_values. rewrite <- flat_map_concat_map.
  assert (C : combine (shift_to_bin_centers (y_bins i)) m = map (fun ky => (nth ky (shift_to_bin_centers (y_bins i)) 0, nth ky m [])) (seq 0 (ny i))).
  { assert (L : length (combine (shift_to_bin_centers (y_bins i)) m) = ny i) by (rewrite combine_length; unfold y_bins; rewrite length_bins, S1; lia).
    apply nth_ext with (d := (0, [])) (d' := (nth 0 (shift_to_bin_centers (y_bins i)) 0, nth 0 m [])); [now rewrite map_length, seq_length|]. intros k Hk. rewrite (map_nth (fun ky => (nth ky (shift_to_bin_centers (y_bins i)) 0, nth ky m []))), seq_nth by lia. rewrite combine_nth; [reflexivity|]. unfold y_bins. now rewrite length_bins. }
  rewrite C. rewrite !flat_map_concat_map, map_map, <- !flat_map_concat_map. apply flat_map_ext_in'. intros ky Hy. apply in_seq in Hy. rewrite Nat.add_0_l in Hy. cbn [fst snd]. assert (L : length (nth ky m []) = nx i) by (rewrite Forall_forall in S2; apply S2, nth_In; lia).
  rewrite (pick_where_spec _ _ None) by (rewrite map_length; unfold x_bins; now rewrite length_bins). rewrite L. apply flat_map_ext_in'. intros kx Hx. apply in_seq in Hx. rewrite Nat.add_0_l in Hx. unfold x_bins. rewrite nth_map_false with (d := 0) by (rewrite length_bins; lia).
  pose proof (centers_spec (xmin i) (xmax i) (nx i) kx (proj2 Hx)) as Cx. pose proof (centers_spec (ymin i) (ymax i) (ny i) ky (proj2 Hy)) as Cy. fold (y_bins i) in Cy. set (cx := nth kx _ 0) in *. set (cy := nth ky (shift_to_bin_centers (y_bins i)) 0) in *.
  assert (E : in_range ((cx - x0) * (cx - x0) + (cy - y0) * (cy - y0)) 0 (r * r) = in_circle x0 y0 r (bin_centre (xmin i) (xmax i) (nx i) kx) (bin_centre (ymin i) (ymax i) (ny i) ky)); [|now rewrite E].
  unfold in_circle. set (u := bin_centre _ _ (nx i) kx) in *. set (v := bin_centre _ _ (ny i) ky) in *. rewrite (in_range_proper _ ((u - x0) * (u - x0) + (v - y0) * (v - y0))) by (now rewrite Cx, Cy).
  unfold in_range. assert (P : Qle_bool 0 ((u - x0) * (u - x0) + (v - y0) * (v - y0)) = true) by (apply Qleb_le; pose proof (Qsq_nonneg (u - x0)); pose proof (Qsq_nonneg (v - y0)); lra). now rewrite P.
Qed.
(** The factor is the greatest value, mean or median of the map, or the median of the bins whose centre is in the region. *)
Theorem C38_normalization i m s : shape i m -> normalizes i m s (normalization_factor i m s).
Proof.
  intros S. destruct s as [| | | |x0 x1 y0 y1|x0 y0 r| |[v|]|]; cbn [normalization_factor normalizes]; try reflexivity.
  - eexists. split; [reflexivity|]. apply max_is.
  - eexists. split; [reflexivity|]. apply nanmean_is.
  - eexists. split; [reflexivity|]. apply nanmedian_is.
  - pose proof (rectangle_values i m x0 x1 y0 y1 S) as R. destruct (pick_where _ m) as [|row rows] eqn:E; [right; split; [reflexivity|symmetry; exact R]|]. left. eexists. split; [reflexivity|]. rewrite R. apply strict_median_is.
  - pose proof (circle_values i m x0 y0 r S) as R. rewrite R. destruct (region_values _ i m) as [|v l] eqn:E; [right; split; reflexivity|]. left. eexists. split; [reflexivity|]. split; [apply strict_median_is|discriminate].
Qed.
Print Assumptions C38_normalization.
Definition grid_ex2 : grid := [[Some 5; Some 7]].
Example C38_normalization_ex : shape info_ex grid_ex2 /\ normalization_factor info_ex grid_ex2 (SRectangle 0 4 0 2) = Ok (Some 7) /\ normalization_factor info_ex grid_ex2 (SCircle 0 0 1) = Err ValueError.
Proof. split; [split; [reflexivity|now repeat constructor]|]. split; vm_compute; reflexivity. Qed.
(** a region with rows and no columns: nan and not the error for an empty region *)
Theorem C38_empty_region_refuted : exists i m s, shape i m /\ (exists x0 x1 y0 y1, s = SRectangle x0 x1 y0 y1 /\ region_values (in_rectangle x0 x1 y0 y1) i m = []) /\ normalization_factor i m s = Ok None.
Proof. exists info_ex, grid_ex2, (SRectangle 100 200 0 2). split; [split; [reflexivity|now repeat constructor]|]. split; [exists 100, 200, 0, 2; split; [reflexivity|vm_compute; reflexivity]|vm_compute; reflexivity]. Qed.
Print Assumptions C38_empty_region_refuted.
