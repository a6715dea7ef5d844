(** C81: spectra count every value in its bin *)
From Verif Require Import Base Arrays PeaksModel PeaksProofs PeaksMore BuffersModel BuffersProofs WfmModel WfmProps PmapioProofs KrProps CalibModel CalibSpec CalibProps CalibLimits S1Props HistModel HistSpec.
Local Open Scope nat_scope.

Lemma decreasing_spec edges : decreasing edges = false <-> non_decreasing edges.
Proof.
  induction edges as [|a [|b r] IH]; [split; [intros _ i H; cbn in H; lia|reflexivity]|split; [intros _ i H; cbn in H; lia|reflexivity]|].
  change (decreasing (a :: b :: r)) with (Qltb b a || decreasing (b :: r)). rewrite Bool.orb_false_iff, IH. split.
  - intros [H1 H2] [|i] Hi; [cbn; destruct (Qltb_spec b a); [discriminate|lra]|]. cbn [Nat.add nth]. apply (H2 i). cbn [length] in *. lia.
  - intros H. split; [destruct (Qltb_spec b a) as [C|]; [|reflexivity]; specialize (H 0 ltac:(cbn; lia)); cbn in H; exfalso; lra|]. intros i Hi. specialize (H (S i) ltac:(cbn [length] in *; lia)). exact H.
Qed.
Lemma count_split {A} (p q : A -> bool) l : (forall x, p x = true -> q x = true) -> length (filter q l) - length (filter p l) = length (filter (fun x => q x && negb (p x)) l) /\ length (filter p l) <= length (filter q l).
Proof. intros H. induction l as [|x l [I1 I2]]; [split; reflexivity|]. cbn [filter]. specialize (H x). destruct (p x), (q x); cbn [length andb negb]; try (split; lia). Qed.
Lemma length_cumulative edges l : length (cumulative_counts edges l) = length edges.
Proof. induction edges as [|a [|b r] IH]; [reflexivity|reflexivity|]. change (cumulative_counts (a :: b :: r) l) with (length (filter (fun x => Qltb x a) l) :: cumulative_counts (b :: r) l). cbn [length]. now rewrite IH. Qed.
Lemma nth_cumulative edges l i : i < length edges -> nth i (cumulative_counts edges l) 0 = if i + 1 =? length edges then length (filter (fun x => Qle_bool x (nth i edges 0%Q)) l) else length (filter (fun x => Qltb x (nth i edges 0%Q)) l).
Proof.
  revert i. induction edges as [|a [|b r] IH]; intros i Hi; [cbn in Hi; lia|destruct i; [reflexivity|cbn in Hi; lia]|].
  change (cumulative_counts (a :: b :: r) l) with (length (filter (fun x => Qltb x a) l) :: cumulative_counts (b :: r) l). destruct i as [|i]; [reflexivity|]. cbn [nth]. rewrite IH by (cbn [length] in *; lia). reflexivity.
Qed.
Lemma length_differences l : length (differences l) = length l - 1.
Proof. induction l as [|a [|b r] IH]; [reflexivity|reflexivity|]. change (differences (a :: b :: r)) with ((b - a) :: differences (b :: r)). cbn [length] in *. lia. Qed.
Lemma nth_differences l i : i + 1 < length l -> nth i (differences l) 0 = nth (i + 1) l 0 - nth i l 0.
Proof.
  revert i. induction l as [|a [|b r] IH]; intros i Hi; [cbn in Hi; lia|cbn in Hi; lia|]. change (differences (a :: b :: r)) with ((b - a) :: differences (b :: r)). destruct i as [|i]; [reflexivity|]. cbn [nth Nat.add]. apply IH. cbn [length] in *. lia.
Qed.
(** numpy.histogram counts the samples in each bin *)
Theorem C81_histogram l edges : edges <> [] ->
  (non_decreasing edges -> exists h, np_histogram l edges = Ok h /\ is_histogram edges l h) /\ (~ non_decreasing edges -> np_histogram l edges = Err ValueError).
Proof.
  intros Hne. unfold np_histogram. split.
  - intros H. rewrite (proj2 (decreasing_spec edges) H). exists (differences (cumulative_counts edges l)). split; [destruct edges; [contradiction|reflexivity]|].
    split; [rewrite length_differences, length_cumulative; reflexivity|]. intros i Hi. rewrite nth_differences by (rewrite length_cumulative; lia). rewrite !nth_cumulative by lia.
    replace (i + 1 =? length edges) with false by (symmetry; apply Nat.eqb_neq; lia). unfold how_many, in_bin. replace (i + 1 + 1 =? length edges) with (i + 2 =? length edges) by (f_equal; lia). specialize (H i ltac:(lia)).
    set (a := nth i edges 0%Q) in *. set (b := nth (i + 1) edges 0%Q) in *. destruct (i + 2 =? length edges).
    + rewrite (proj1 (count_split (fun x => Qltb x a) (fun x => Qle_bool x b) l ltac:(intros x Hx; apply Qltb_lt in Hx; apply Qleb_le; lra))). f_equal. apply filter_ext. intros x. destruct (Qltb_spec x a), (Qleb_spec x b), (Qleb_spec a x); cbn; try reflexivity; exfalso; lra.
    + rewrite (proj1 (count_split (fun x => Qltb x a) (fun x => Qltb x b) l ltac:(intros x Hx; apply Qltb_lt in Hx; apply Qltb_lt; lra))). f_equal. apply filter_ext. intros x. destruct (Qltb_spec x a), (Qltb_spec x b), (Qleb_spec a x); cbn; try reflexivity; exfalso; lra.
  - intros H. destruct (decreasing edges) eqn:E; [reflexivity|]. exfalso. apply H. now apply decreasing_spec.
Qed.
Lemma sum_differences l : (forall i, i + 1 < length l -> nth i l 0 <= nth (i + 1) l 0) -> l <> [] -> sumN (differences l) + nth 0 l 0 = nth (length l - 1) l 0.
Proof.
  induction l as [|a [|b r] IH]; intros H N; [contradiction|reflexivity|]. change (differences (a :: b :: r)) with ((b - a) :: differences (b :: r)). assert (I : sumN (differences (b :: r)) + nth 0 (b :: r) 0 = nth (length (b :: r) - 1) (b :: r) 0).
  { apply IH; [|discriminate]. intros i Hi. specialize (H (S i) ltac:(cbn [length] in *; lia)). exact H. }
  specialize (H 0 ltac:(cbn; lia)). cbn [nth Nat.add] in H. cbn [length] in *. replace (S (S (length r)) - 1) with (S (S (length r) - 1)) by lia. cbn [nth] in *. cbn [sumN fold_right]. fold (sumN (differences (b :: r))). lia.
Qed.
Lemma increasing_ends edges : non_decreasing edges -> forall i j, i <= j -> j < length edges -> (nth i edges 0 <= nth j edges 0)%Q.
Proof. intros H i j. induction j as [|j IH]; intros L K; [replace i with 0 by lia; apply Qle_refl|]. destruct (Nat.eq_dec i (S j)) as [->|]; [apply Qle_refl|]. apply Qle_trans with (nth j edges 0%Q); [apply IH; lia|]. replace (S j) with (j + 1) by lia. apply H. lia. Qed.
(** every sample between the first and the last edge, both included, is counted once, and no other *)
Theorem C81_total l edges h : 2 <= length edges -> non_decreasing edges -> np_histogram l edges = Ok h ->
  sumN h = how_many (fun x => Qle_bool (nth 0 edges 0%Q) x && Qle_bool x (nth (length edges - 1) edges 0%Q)) l.
Proof.
  intros L H E. unfold np_histogram in E. rewrite (proj2 (decreasing_spec edges) H) in E. destruct edges as [|e0 er] eqn:Ee; [cbn in L; lia|]. rewrite <- Ee in *. assert (E' : h = differences (cumulative_counts edges l)) by (rewrite Ee in E; injection E as <-; now rewrite Ee). clear E. subst h.
  pose proof (length_cumulative edges l) as Lc. assert (M : forall i, i + 1 < length edges -> nth i (cumulative_counts edges l) 0 <= nth (i + 1) (cumulative_counts edges l) 0).
  { intros i Hi. rewrite !nth_cumulative by lia. replace (i + 1 =? length edges) with false by (symmetry; apply Nat.eqb_neq; lia). pose proof (H i Hi). destruct (i + 1 + 1 =? length edges); apply count_split; intros x Hx; apply Qltb_lt in Hx; [apply Qleb_le|apply Qltb_lt]; lra. }
  pose proof (sum_differences (cumulative_counts edges l) ltac:(rewrite Lc; exact M) ltac:(intros C; rewrite C in Lc; cbn in Lc; lia)) as S. rewrite Lc, !nth_cumulative in S by lia. replace (0 + 1 =? length edges) with false in S by (symmetry; apply Nat.eqb_neq; lia). replace (length edges - 1 + 1 =? length edges) with true in S by (symmetry; apply Nat.eqb_eq; lia).
  pose proof (increasing_ends edges H 0 (length edges - 1) ltac:(lia) ltac:(lia)) as Le. set (a := nth 0 edges 0%Q) in *. set (b := nth (length edges - 1) edges 0%Q) in *.
  destruct (count_split (fun x => Qltb x a) (fun x => Qle_bool x b) l ltac:(intros x Hx; apply Qltb_lt in Hx; apply Qleb_le; lra)) as [C1 C2]. unfold how_many. transitivity (length (filter (fun x => Qle_bool x b && negb (Qltb x a)) l)); [lia|]. f_equal. apply filter_ext. intros x. destruct (Qltb_spec x a), (Qleb_spec x b), (Qleb_spec a x); cbn; try reflexivity; exfalso; lra.
Qed.

(** ---- several events ---- *)
Lemma bin_waveforms_ok wfs edges : wfs <> [] -> edges <> [] -> non_decreasing edges -> exists hs, bin_waveforms wfs edges = Ok hs /\ Forall2 (is_histogram edges) wfs hs.
Proof.
  intros W E H. unfold bin_waveforms. destruct wfs as [|w wfs]; [contradiction|]. apply rmap_all_forall2. intros wf _. now apply C81_histogram.
Qed.
Lemma how_many_app {A} (p : A -> bool) l m : how_many p (l ++ m) = how_many p l + how_many p m.
Proof. unfold how_many. now rewrite filter_app, app_length. Qed.
Lemma map2_add_nth a b i : length a = length b -> nth i (map2 Nat.add a b) 0 = nth i a 0 + nth i b 0.
Proof. revert b i. induction a as [|x a IH]; intros [|y b] i L; try discriminate; [now destruct i|]. destruct i as [|i]; [reflexivity|]. cbn [map2 nth]. apply IH. now injection L. Qed.
Lemma histogram_add edges l m h k : is_histogram edges l h -> is_histogram edges m k -> is_histogram edges (l ++ m) (map2 Nat.add h k).
Proof.
  intros [L1 H1] [L2 H2]. split; [rewrite length_map2_eq by congruence; assumption|]. intros i Hi. rewrite map2_add_nth by congruence. rewrite H1, H2 by assumption. symmetry. apply how_many_app.
Qed.
(** the values of sensor [s] in some events *)
Definition values_of (events : list (list (list Q))) (s : nat) : list Q := flat_map (fun wfs => nth s wfs []) events.
Lemma same_shape_ok a b : length a = length b -> (forall s, s < length a -> length (nth s a []) = length (nth s b [])) -> same_shape a b = true.
Proof.
  intros L H. unfold same_shape. rewrite (proj2 (Nat.eqb_eq _ _) L). cbn. revert b L H. induction a as [|x a IH]; intros [|y b] L H; try discriminate; [reflexivity|]. cbn [combine forallb fst snd]. pose proof (H 0 ltac:(cbn; lia)) as H0. cbn [nth] in H0. rewrite (proj2 (Nat.eqb_eq _ _) H0). cbn. apply IH; [now injection L|]. intros s Hs. apply (H (S s)). cbn. lia.
Qed.
Lemma nth_map2_add a b s : length a = length b -> nth s (map2 (map2 Nat.add) a b) [] = map2 Nat.add (nth s a []) (nth s b []).
Proof. revert b s. induction a as [|x a IH]; intros [|y b] s L; try discriminate; [now destruct s|]. destruct s as [|s]; [reflexivity|]. cbn [map2 nth]. apply IH. now injection L. Qed.
Lemma accumulate_spec edges n : 0 < n -> edges <> [] -> non_decreasing edges -> forall events acc before, (forall wfs, In wfs events -> length wfs = n) -> is_spectrum edges n before acc ->
  exists out, accumulate edges acc events = Ok out /\ is_spectrum edges n (fun s => before s ++ values_of events s) out.
Proof.
  intros Hn He H. induction events as [|wfs events IH]; intros acc before L [A1 A2].
  - exists acc. split; [reflexivity|]. split; [assumption|]. intros s Hs. unfold values_of. cbn. rewrite app_nil_r. now apply A2.
  - pose proof (L wfs (or_introl eq_refl)) as Lw. destruct (bin_waveforms_ok wfs edges ltac:(intros ->; cbn in Lw; lia) He H) as (hs & E & F). cbn [accumulate]. rewrite E. cbn [rbind].
    pose proof (Forall2_len _ _ _ F) as Lh. assert (Fs : forall s, s < n -> is_histogram edges (nth s wfs []) (nth s hs [])) by (intros s Hs; apply Forall2_nth; [assumption|lia]).
    assert (Sh : same_shape acc hs = true). { apply same_shape_ok; [lia|]. intros s Hs. destruct (A2 s ltac:(lia)) as [X _]. destruct (Fs s ltac:(lia)) as [Y _]. congruence. }
    unfold add_histograms. rewrite Sh. cbn [rbind]. destruct (IH (map2 (map2 Nat.add) acc hs) (fun s => before s ++ nth s wfs [])) as (out & E' & S1 & S2); [intros w Hw; apply L; now right| |].
    + split; [rewrite length_map2_eq by lia; assumption|]. intros s Hs. rewrite nth_map2_add by lia. apply histogram_add; [now apply A2|now apply Fs].
    + exists out. split; [assumption|]. split; [assumption|]. intros s Hs. unfold values_of in *. cbn [flat_map]. rewrite app_assoc. now apply S2.
Qed.
Lemma nth_repeat_in {A} (a d : A) n i : i < n -> nth i (repeat a n) d = a.
Proof. revert i. induction n as [|n IH]; intros [|i] H; try lia; [reflexivity|]. cbn. apply IH. lia. Qed.
Lemma zeros_spectrum edges n : is_spectrum edges n (fun _ => []) (zeros n edges).
Proof. split; [apply repeat_length|]. intros s Hs. unfold zeros. rewrite nth_repeat_in by assumption. split; [apply repeat_length|]. intros i Hi. now rewrite nth_repeat_in. Qed.
(** the spectrum of a sensor counts its samples in all the events *)
Theorem C81_spectrum edges n events : 0 < n -> edges <> [] -> non_decreasing edges -> (forall wfs, In wfs events -> length wfs = n) ->
  exists out, spectrum n edges events = Ok out /\ is_spectrum edges n (values_of events) out.
Proof. intros Hn He H L. destruct (accumulate_spec edges n Hn He H events (zeros n edges) (fun _ => []) L (zeros_spectrum edges n)) as (out & E & S). exists out. split; assumption. Qed.
(** and the spectrum of integrals counts the windows, in all the events, by the sum of the samples in them *)
Theorem C81_integrals edges n L ws events : 0 < n -> edges <> [] -> non_decreasing edges -> (forall m, In m events -> length (rows m) = n /\ cols m = L) ->
  ws <> [] -> StronglySorted Z.lt (limits_of ws) -> Forall (fun x => 0 <= x < Z.of_nat L)%Z (limits_of ws) ->
  exists out, integral_spectrum n edges (limits_of ws) events = Ok out /\
    is_spectrum edges n (fun s => flat_map (fun m => map (fun w => sumQ (slice (Z.to_nat (fst w)) (Z.to_nat (snd w)) (nth s (rows m) []))) ws) events) out.
Proof.
  intros Hn He H Le W1 W2 W3. unfold integral_spectrum. set (integ := fun m => map (fun wf => map (fun w => sumQ (slice (Z.to_nat (fst w)) (Z.to_nat (snd w)) wf)) ws) (rows m)).
  assert (E : rmap (fun m => waveform_integrator m (limits_of ws)) events = Ok (map integ events)).
  { assert (Le' : forall m, In m events -> cols m = L) by (intros m Hm; now apply Le). clear Le. induction events as [|m events IH]; [reflexivity|]. cbn [rmap map]. rewrite IH by (intros; apply Le'; now right). rewrite C48_integrals; [reflexivity|assumption|assumption|]. rewrite (Le' m (or_introl eq_refl)). assumption. }
  rewrite E. cbn [rbind]. destruct (C81_spectrum edges n (map integ events) Hn He H) as (out & Eo & S1 & S2).
  - intros wfs Hw. apply in_map_iff in Hw. destruct Hw as (m & <- & Hm). unfold integ. rewrite map_length. now apply Le.
  - exists out. split; [assumption|]. split; [assumption|]. intros s Hs. specialize (S2 s Hs). replace (flat_map _ events) with (values_of (map integ events) s); [assumption|]. unfold values_of. clear -Le Hs. induction events as [|m events IH]; [reflexivity|]. cbn [map flat_map]. rewrite IH by (intros; apply Le; now right). f_equal.
    unfold integ. set (g := fun wf => map (fun w => sumQ (slice (Z.to_nat (fst w)) (Z.to_nat (snd w)) wf)) ws). rewrite nth_indep with (d' := g []) by (rewrite map_length; destruct (Le m (or_introl eq_refl)); lia). apply map_nth.
Qed.
(** the edges of the cities: steps of the width from the minimum while below the maximum *)
Theorem C81_edges a b w : (0 < w)%Q -> (a < b)%Q -> let e := bin_edges a b w in
  e <> [] /\ non_decreasing e /\ (forall i, (i < length e)%nat -> nth i e 0%Q = a + qn i * w)%Q /\ (b - w <= nth (length e - 1)%nat e 0 < b)%Q.
Proof.
  intros Hw Hab e. assert (N : forall i, (i < length e)%nat -> (nth i e 0 = a + qn i * w)%Q) by (intros i Hi; now apply nth_arange).
  assert (Le : length e = Z.to_nat (Qceiling ((b - a) / w))) by (unfold e, bin_edges, arange; now rewrite map_length, seq_length). assert (P : (0 < (b - a) / w)%Q) by (apply Qlt_shift_div_l; lra).
  assert (C1 : ((b - a) / w <= inject_Z (Qceiling ((b - a) / w)))%Q) by apply Qle_ceiling; assert (C2 : (inject_Z (Qceiling ((b - a) / w)) - 1 < (b - a) / w)%Q) by (pose proof (Qceiling_lt ((b - a) / w)) as X; unfold Z.sub in X; rewrite inject_Z_plus in X; exact X). assert (Zp : (0 < Qceiling ((b - a) / w))%Z) by (rewrite Zlt_Qlt; change (inject_Z 0) with 0%Q; lra).
  assert (L1 : 0 < length e) by lia. split; [intros C; rewrite C in L1; cbn in L1; lia|]. split; [|split; [assumption|]].
  - intros i Hi. rewrite !N by lia. assert (qn i <= qn (i + 1))%Q by (apply qn_le; lia). apply Qplus_le_r. apply Qmult_le_compat_r; lra.
  - rewrite N by lia. rewrite Le. assert (Eq : (qn (Z.to_nat (Qceiling ((b - a) / w)) - 1) == inject_Z (Qceiling ((b - a) / w)) - 1)%Q).
    { unfold qn. replace (Z.of_nat (Z.to_nat (Qceiling ((b - a) / w)) - 1)) with (Qceiling ((b - a) / w) - 1)%Z by lia. unfold Z.sub. rewrite inject_Z_plus, inject_Z_opp. change (inject_Z 1) with 1%Q. ring. }
    rewrite Eq. set (c := inject_Z (Qceiling ((b - a) / w))) in *. clearbody c. assert (E1 : ((b - a) / w * w == b - a)%Q) by (field; lra). set (r := ((b - a) / w)%Q) in *. clearbody r. assert (r * w <= c * w)%Q by (apply Qmult_le_compat_r; lra). assert ((c - 1) * w < r * w)%Q by (apply Qmult_lt_compat_r; lra). lra.
Qed.
(** so values between the last edge and the maximum are in no bin *)
Theorem C81_maximum_refuted : exists a b w x h, (a < x)%Q /\ (x < b)%Q /\ np_histogram [x] (bin_edges a b w) = Ok h /\ sumN h = 0.
Proof. exists 0%Q, 10%Q, 1%Q, (19 # 2)%Q. eexists. split; [lra|]. split; [lra|]. split; vm_compute; reflexivity. Qed.
Example C81_example : spectrum 2 (bin_edges 0 5 1) [[[0; 1; 4]; [1 # 2; 3; 9]]; [[4; -1]; []]]%Q = Ok [[1; 1; 0; 2]; [1; 0; 0; 1]].
Proof. vm_compute. reflexivity. Qed.
Example C81_example_integrals : integral_spectrum 1 (bin_edges 0 12 4) (limits_of [(0, 2); (3, 5)]%Z) [{| cols := 6; rows := [[1; 2; 9; 4; 4; 9]%Q] |}; {| cols := 6; rows := [[1; 3; 9; 1; 0; 9]%Q] |}] = Ok [[2; 2]].
Proof. vm_compute. reflexivity. Qed.
Print Assumptions C81_histogram.
Print Assumptions C81_total.
Print Assumptions C81_spectrum.
Print Assumptions C81_integrals.
Print Assumptions C81_edges.
Print Assumptions C81_maximum_refuted.
