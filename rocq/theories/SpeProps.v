(** C82: the response of a sensor to light *)
From Verif Require Import Base Arrays PeaksModel PeaksProofs PeaksMore WfmModel WfmProps NoiseModel NoiseSpec NoiseProofs SpeModel SpeSpec.
From Coq Require Import Factorial Qpower.
Local Open Scope Q_scope.

Lemma qpow_spec x k : qpow x k == x ^ Z.of_nat k.
Proof.
  induction k as [|k IH]; [reflexivity|]. cbn [qpow]. rewrite IH, Nat2Z.inj_succ. destruct k as [|k]; [cbn; ring|].
  rewrite <- Z.add_1_l, Qpower_plus' by lia. reflexivity.
Qed.
Lemma factor_expected scale em mean k : scale * poisson_factor em k mean == expected scale em mean k.
Proof. unfold poisson_factor, expected, qnat. rewrite qpow_spec. reflexivity. Qed.
Lemma fact_pos k : 0 < qnat (fact k).
Proof. apply qnat_pos. apply lt_O_fact. Qed.
Lemma factor_S em k mean : poisson_factor em (S k) mean == poisson_factor em k mean * mean / qnat (S k).
Proof.
  unfold poisson_factor. cbn [qpow]. assert (E : qnat (fact (S k)) == qnat (S k) * qnat (fact k)).
  { unfold qnat. rewrite <- inject_Z_mult. f_equiv. change (fact (S k)) with (S k * fact k)%nat. lia. }
  rewrite E. pose proof (fact_pos k). pose proof (qnat_pos (S k) ltac:(lia)). field. split; lra.
Qed.
Lemma factor_nonneg em k mean : 0 <= em -> 0 <= mean -> 0 <= poisson_factor em k mean.
Proof.
  intros He Hm. unfold poisson_factor. pose proof (fact_pos k). apply Qle_shift_div_l; [assumption|]. rewrite Qmult_0_l. apply Qmult_le_0_compat; [|assumption]. clear -Hm. induction k as [|k IH]; cbn; [lra|]. now apply Qmult_le_0_compat.
Qed.

(** ---- the number of gaussians ---- *)
Section Number.
  Variables (mi scale em mean : Q).
  Let f (k : nat) := scale * poisson_factor em k mean.
  Lemma from_spec fuel : forall k ints n l, gaussians_from fuel k mi scale em mean ints = Some (n, l) ->
    (k <= n)%nat /\ l = ints ++ map f (seq k (n - k)) /\ (forall j, (k <= j < n)%nat -> mi < f j) /\ f n <= mi.
  Proof.
    induction fuel as [|fuel IH]; intros k ints n l H; [discriminate|]. cbn [gaussians_from] in H. fold (f k) in H. destruct (Qleb_spec (f k) mi) as [C|C].
    - injection H as <- <-. rewrite Nat.sub_diag. cbn. rewrite app_nil_r. repeat split; try lia; assumption.
    - apply IH in H. destruct H as (H1 & H2 & H3 & H4). split; [lia|]. split; [|split; [|assumption]].
      + rewrite H2, <- app_assoc. f_equal. replace (n - k)%nat with (S (n - S k)) by lia. reflexivity.
      + intros j Hj. destruct (Nat.eq_dec j k) as [->|]; [lra|]. apply H3. lia.
  Qed.
  Lemma from_ends fuel : forall k n ints, (k <= n)%nat -> (n - k < fuel)%nat -> f n <= mi -> exists r, gaussians_from fuel k mi scale em mean ints = Some r.
  Proof.
    induction fuel as [|fuel IH]; intros k n ints H1 H2 H3; [lia|]. cbn [gaussians_from]. fold (f k). destruct (Qleb_spec (f k) mi) as [C|C]; [eauto|]. assert (k <> n) by (intros ->; lra). apply (IH (S k) n); [lia|lia|assumption].
  Qed.
  Lemma f_S k : f (S k) == f k * mean / qnat (S k).
  Proof. unfold f. rewrite factor_S. pose proof (qnat_pos (S k) ltac:(lia)). field. lra. Qed.
  Lemma eventually : 0 < mi -> 0 <= em -> 0 <= mean -> exists n, f n <= mi.
  Proof.
    intros Hm He Hx. destruct (Qlt_le_dec scale 0) as [C|C].
    { exists 0%nat. unfold f. pose proof (factor_nonneg em 0 mean He Hx). assert (0 <= (- scale) * poisson_factor em 0 mean) by (apply Qmult_le_0_compat; lra). lra. }
    assert (P : forall k, 0 <= f k) by (intros k; unfold f; apply Qmult_le_0_compat; [assumption|now apply factor_nonneg]).
    set (N := Z.to_nat (Qceiling (2 * mean))). assert (HN : forall k, (N <= k)%nat -> 2 * mean <= qnat (S k)).
    { intros k Hk. apply Qle_trans with (inject_Z (Qceiling (2 * mean))); [apply Qle_ceiling|]. unfold qnat. rewrite <- Zle_Qle. lia. }
    assert (H2 : forall j, f (N + j)%nat * qnat (S j) <= f N).
    { induction j as [|j IH]; [rewrite Nat.add_0_r; change (qnat 1) with 1; lra|]. rewrite Nat.add_succ_r, f_S. specialize (HN (N + j)%nat ltac:(lia)). pose proof (P (N + j)%nat) as Pj. pose proof (qnat_pos (S (N + j)) ltac:(lia)) as Q1.
      assert (Hh : f (N + j)%nat * mean / qnat (S (N + j)) <= f (N + j)%nat / 2).
      { apply Qle_shift_div_r; [assumption|]. assert (f (N + j)%nat * (2 * mean) <= f (N + j)%nat * qnat (S (N + j))) by (rewrite !(Qmult_comm (f (N + j)%nat)); now apply Qmult_le_compat_r). assert (E0 : f (N + j)%nat / 2 * qnat (S (N + j)) == (1 # 2) * (f (N + j)%nat * qnat (S (N + j)))) by field. rewrite E0. lra. }
      pose proof (qnat_pos (S j) ltac:(lia)) as Q2. assert (E : qnat (S (S j)) <= 2 * qnat (S j)). { rewrite (qnat_S (S j)). rewrite (qnat_S j). assert (0 <= qnat j) by (unfold qnat; change 0 with (inject_Z 0); rewrite <- Zle_Qle; lia). lra. }
      apply Qle_trans with (f (N + j)%nat / 2 * qnat (S (S j))); [apply Qmult_le_compat_r; [assumption|]; pose proof (qnat_pos (S (S j)) ltac:(lia)); lra|].
      apply Qle_trans with (f (N + j)%nat / 2 * (2 * qnat (S j))); [|assert (f (N + j)%nat / 2 * (2 * qnat (S j)) == f (N + j)%nat * qnat (S j)) as -> by field; exact IH].
      rewrite !(Qmult_comm (f (N + j)%nat / 2)). apply Qmult_le_compat_r; [assumption|]. apply Qle_shift_div_l; lra. }
    set (j := Z.to_nat (Qceiling (f N / mi))). exists (N + j)%nat. specialize (H2 j). assert (Hj : f N <= mi * qnat (S j)).
    { assert (f N / mi <= qnat (S j)). { apply Qle_trans with (inject_Z (Qceiling (f N / mi))); [apply Qle_ceiling|]. unfold qnat. rewrite <- Zle_Qle. lia. }
      assert (E : f N == mi * (f N / mi)) by (field; lra). rewrite E at 1. rewrite !(Qmult_comm mi). apply Qmult_le_compat_r; lra. }
    pose proof (qnat_pos (S j) ltac:(lia)) as Q. apply Qnot_lt_le. intros K. assert (mi * qnat (S j) < f (N + j)%nat * qnat (S j)) by (apply Qmult_lt_compat_r; assumption). lra.
  Qed.
  Lemma later n : 0 <= scale -> 0 <= em -> 0 <= mean -> mean <= qnat (S n) -> f n <= mi -> 0 <= mi -> forall k, (n <= k)%nat -> f k <= mi.
  Proof.
    intros Hs He Hx Hn H Hmi k Hk. replace k with (n + (k - n))%nat by lia. generalize (k - n)%nat as j. induction j as [|j IH]; [now rewrite Nat.add_0_r|]. rewrite Nat.add_succ_r, f_S.
    assert (P : 0 <= f (n + j)%nat) by (unfold f; apply Qmult_le_0_compat; [assumption|now apply factor_nonneg]). pose proof (qnat_pos (S (n + j)) ltac:(lia)) as Q. apply Qle_trans with (f (n + j)%nat); [|assumption]. apply Qle_shift_div_r; [assumption|].
    assert (mean <= qnat (S (n + j))). { apply Qle_trans with (qnat (S n)); [assumption|]. unfold qnat. rewrite <- Zle_Qle. lia. } rewrite !(Qmult_comm (f (n + j)%nat)). now apply Qmult_le_compat_r.
  Qed.
End Number.
(** for a positive minimum the search ends: the gaussians are those before the first one whose integral is not above the minimum *)
Theorem C82_number mi scale em mean : 0 < mi -> 0 <= em -> 0 <= mean ->
  exists n l, (forall fuel, (n < fuel)%nat -> number_of_gaussians fuel mi scale em mean = Some (n, l)) /\
    length l = n /\ (forall k, (k < n)%nat -> nth k l 0 == expected scale em mean k /\ mi < expected scale em mean k) /\ expected scale em mean n <= mi.
Proof.
  intros Hm He Hx. destruct (eventually mi scale em mean Hm He Hx) as (N & HN). destruct (from_ends mi scale em mean (S N) 0 N [] ltac:(lia) ltac:(lia) HN) as ((n & l) & E).
  destruct (from_spec mi scale em mean _ _ _ _ _ E) as (_ & H2 & H3 & H4). exists n, l. rewrite Nat.sub_0_r in H2. cbn [app] in H2. split; [|split; [subst l; now rewrite map_length, seq_length|split; [|now rewrite <- factor_expected]]].
  - intros fuel Hf. destruct (from_ends mi scale em mean fuel 0 n [] ltac:(lia) ltac:(lia) H4) as ((n' & l') & E'). unfold number_of_gaussians. rewrite E'. destruct (from_spec mi scale em mean _ _ _ _ _ E') as (_ & K2 & K3 & K4). rewrite Nat.sub_0_r in K2. cbn [app] in K2.
    assert (n' = n). { destruct (lt_eq_lt_dec n' n) as [[C|C]|C]; [|assumption|]; exfalso; [specialize (H3 n' ltac:(lia))|specialize (K3 n ltac:(lia))]; lra. } subst. reflexivity.
  - intros k Hk. rewrite <- factor_expected. split; [|apply H3; lia]. subst l. rewrite (nth_indep _ 0 (scale * poisson_factor em 0%nat mean)) by (rewrite map_length, seq_length; lia). rewrite (map_nth (fun k => scale * poisson_factor em k mean)), seq_nth by lia. reflexivity.
Qed.
(** the ones left out are all below the minimum if the search went beyond the mean *)
Theorem C82_left_out mi scale em mean fuel n l : 0 <= mi -> 0 <= scale -> 0 <= em -> 0 <= mean -> number_of_gaussians fuel mi scale em mean = Some (n, l) -> mean <= inject_Z (Z.of_nat n) + 1 ->
  forall k, (n <= k)%nat -> expected scale em mean k <= mi.
Proof.
  intros Hm Hs He Hx E Hn k Hk. rewrite <- factor_expected. destruct (from_spec mi scale em mean _ _ _ _ _ E) as (_ & _ & _ & H4). apply (later mi scale em mean n); try assumption. rewrite qnat_S. exact Hn.
Qed.
(** but with much light the search stops at once, although there are gaussians far above the minimum *)
Theorem C82_bright_refuted : exists mi scale em mean, 0 < mi /\ 0 < scale /\ 0 < em /\ 0 < mean /\ number_of_gaussians 1 mi scale em mean = Some (0%nat, []) /\ mi < expected scale em mean 5.
Proof. exists 100, 1000, (1 # 148), 5. repeat split; vm_compute; reflexivity. Qed.
(** and with a negative minimum it never ends *)
Theorem C82_endless mi scale em mean fuel : mi < 0 -> 0 <= scale -> 0 <= em -> 0 <= mean -> number_of_gaussians fuel mi scale em mean = None.
Proof.
  intros Hm Hs He Hx. destruct (number_of_gaussians fuel mi scale em mean) as [[n l]|] eqn:E; [|reflexivity]. exfalso. destruct (from_spec mi scale em mean _ _ _ _ _ E) as (_ & _ & _ & H4). pose proof (factor_nonneg em n mean He Hx). assert (0 <= scale * poisson_factor em n mean) by (now apply Qmult_le_0_compat). lra.
Qed.

(** ---- the sum of gaussians ---- *)
Lemma nth_add_lists a b i : (i < length a)%nat -> (i < length b)%nat -> nth i (add_lists a b) 0 == nth i a 0 + nth i b 0.
Proof. intros Ha Hb. unfold add_lists. revert b i Ha Hb. induction a as [|x a IH]; intros [|y b] [|i] Ha Hb; cbn [length] in *; try lia; cbn [map2 nth]; [reflexivity|]. apply IH; lia. Qed.
Lemma length_add_lists a b : length a = length b -> length (add_lists a b) = length a.
Proof. unfold add_lists. revert b. induction a as [|x a IH]; intros [|y b] H; cbn in *; try lia. f_equal. apply IH. lia. Qed.
Lemma nth_map_d {A} (f : A -> Q) l i d : (i < length l)%nat -> nth i (map f l) 0 = f (nth i l d).
Proof. intros H. rewrite (nth_indep _ 0 (f d)) by now rewrite map_length. apply map_nth. Qed.
Lemma nth_suppress xs ys j : length xs = length ys -> (j < length xs)%nat -> nth j (suppress_negative xs ys) 0 = if Qltb (nth j xs 0) 0 then 0 else nth j ys 0.
Proof.
  intros E H. unfold suppress_negative. rewrite (nth_map2 _ xs ys j 0 0 0 E H). destruct (Qleb_spec 0 (nth j xs 0)), (Qltb_spec (nth j xs 0) 0); try reflexivity; lra.
Qed.
Section Sum.
  Variable gauss : Q -> Q -> Q -> Q.
  Variables (xs ints : list Q) (pm pv gain gv : Q).
  Lemma length_component i : length (component gauss xs ints pm pv gain gv i) = length xs.
  Proof. unfold component. rewrite map_length. destruct (i =? 0)%nat; [now rewrite map_length|]. unfold suppress_negative. apply length_map2_eq. now rewrite map_length. Qed.
  Lemma component_at i j : (j < length xs)%nat -> nth j (component gauss xs ints pm pv gain gv i) 0 =
    nth i ints 0 * (if (0 <? i)%nat && Qltb (nth j xs 0) 0 then 0 else gauss (nth j xs 0) (pm + qnat i * gain) (pv + qnat i * gv)).
  Proof.
    intros Hj. unfold component. rewrite (nth_map_d _ _ j 0) by (pose proof (length_component i) as L; unfold component in L; rewrite map_length in L; lia). f_equal. destruct (Nat.eqb_spec i 0) as [->|Hi]; cbn [Nat.ltb Nat.leb andb].
    - now rewrite (nth_map_d _ _ j 0).
    - rewrite nth_suppress by (rewrite ?map_length; auto). rewrite (nth_map_d _ xs j 0) by assumption. destruct i; [contradiction|reflexivity].
  Qed.
  Lemma add_components_at (f : nat -> list Q) first n j : (forall i, length (f i) = length xs) -> (j < length xs)%nat ->
    length (add_components xs f first n) = length xs /\ nth j (add_components xs f first n) 0 == sumF (fun i => nth j (f i) 0) (seq first (n - first)).
  Proof.
    intros Hf Hj. unfold add_components. generalize (seq first (n - first)) as l. intros l.
    assert (G : forall acc, length acc = length xs -> length (fold_left (fun acc i => add_lists acc (f i)) l acc) = length xs /\ nth j (fold_left (fun acc i => add_lists acc (f i)) l acc) 0 == nth j acc 0 + sumF (fun i => nth j (f i) 0) l).
    { induction l as [|i l IH]; intros acc Ha; cbn [fold_left]; [split; [assumption|]; change (sumF _ []) with 0; lra|]. assert (Hl : length (add_lists acc (f i)) = length xs) by (rewrite length_add_lists; [assumption|rewrite Hf; assumption]). destruct (IH _ Hl) as (I1 & I2). split; [assumption|]. rewrite I2, sumF_cons, nth_add_lists by (rewrite ?Hf; lia). ring. }
    destruct (G (map (fun _ => 0) xs) (map_length _ _)) as (G1 & G2). split; [assumption|]. rewrite G2, (nth_map_d _ xs j 0) by assumption. lra.
  Qed.
End Sum.
(** the spectrum at each charge: one gaussian per number of photoelectrons, from the first asked for, in the proportions of a Poisson law, negative charges only from the pedestal *)
Theorem C82_sum gauss first ng mi fuel xs scale em mean pm pv gain gv out n :
  poisson_scaled_gaussians gauss first ng mi fuel xs scale em mean pm pv gain gv = Some (Ok (out, n)) ->
  (match ng, mi with
   | Some m, None => n = m
   | None, Some b => (forall k, (k < n)%nat -> b < expected scale em mean k) /\ expected scale em mean n <= b
   | _, _ => False
   end) /\ length out = length xs /\
  forall j x, nth_error xs j = Some x -> exists y, nth_error out j = Some y /\
    y == sumF (fun i => expected scale em mean i * (if (0 <? i)%nat && Qltb x 0 then 0 else gauss x (pm + inject_Z (Z.of_nat i) * gain) (pv + inject_Z (Z.of_nat i) * gv))) (seq first (n - first)).
Proof.
  assert (G : forall ints n, (forall k, (k < n)%nat -> nth k ints 0 == expected scale em mean k) -> let out := add_components xs (component gauss xs ints pm pv gain gv) first n in
    length out = length xs /\ forall j x, nth_error xs j = Some x -> exists y, nth_error out j = Some y /\
    y == sumF (fun i => expected scale em mean i * (if (0 <? i)%nat && Qltb x 0 then 0 else gauss x (pm + inject_Z (Z.of_nat i) * gain) (pv + inject_Z (Z.of_nat i) * gv))) (seq first (n - first))).
  { intros ints m Hi o. assert (L : length o = length xs).
    { destruct xs as [|x0 xs0] eqn:Ex; [|apply (add_components_at (x0 :: xs0) (component gauss (x0 :: xs0) ints pm pv gain gv) first m 0); [intros i; apply length_component|cbn; lia]]. subst o. unfold add_components. generalize (seq first (m - first)). intros l. cbn [map]. induction l as [|i l IH]; [reflexivity|exact IH]. }
    split; [assumption|]. intros j x Hx. assert (Hj : (j < length xs)%nat) by (apply nth_error_Some; congruence). exists (nth j o 0). split; [apply nth_error_nth'; lia|].
    destruct (add_components_at xs (component gauss xs ints pm pv gain gv) first m j (length_component _ _ _ _ _ _ _) Hj) as (_ & E). subst o. rewrite E. apply sumF_ext. intros i Ii. apply in_seq in Ii. rewrite component_at by assumption. rewrite (nth_error_nth _ _ 0 Hx), Hi by lia. reflexivity. }
  unfold poisson_scaled_gaussians. destruct ng as [m|], mi as [b|]; intros H; try discriminate.
  - injection H as <- <-. split; [reflexivity|]. apply G. intros k Hk. rewrite <- factor_expected. rewrite (nth_map_d _ _ k 0%nat) by (rewrite seq_length; lia). rewrite seq_nth by lia. reflexivity.
  - destruct (number_of_gaussians fuel b scale em mean) as [[m l]|] eqn:E; [|discriminate]. injection H as <- <-. destruct (from_spec b scale em mean _ _ _ _ _ E) as (_ & H2 & H3 & H4). rewrite Nat.sub_0_r in H2. cbn [app] in H2. split.
    + split; [|now rewrite <- factor_expected]. intros k Hk. rewrite <- factor_expected. apply H3. lia.
    + apply G. intros k Hk. rewrite <- factor_expected. subst l. rewrite (nth_map_d _ _ k 0%nat) by (rewrite seq_length; lia). rewrite seq_nth by lia. reflexivity.
Qed.

(** ---- convolution with the dark spectrum ---- *)
Lemma sum_beyond (f : nat -> Q) a b : (a <= b)%nat -> (forall i, (a <= i)%nat -> f i == 0) -> sumF f (seq 0 b) == sumF f (seq 0 a).
Proof. intros H Hf. replace b with (a + (b - a))%nat by lia. rewrite seq_app, sumF_app. rewrite (sumF_zero f (seq (0 + a) (b - a))); [lra|]. intros i Hi. apply in_seq in Hi. apply Hf. lia. Qed.
Lemma conv_full a b K : conv_at a b K == sumF (fun i => nth i a 0 * nth (K - i) b 0) (seq 0 (S K)).
Proof.
  unfold conv_at. set (g := fun i => if (i <=? K)%nat then nth i a 0 * nth (K - i) b 0 else 0). set (M := Nat.max (length a) (S K)).
  assert (E1 : sumF g (seq 0 M) == sumF g (seq 0 (length a))). { apply sum_beyond; [lia|]. intros i Hi; unfold g; destruct (i <=? K)%nat; [rewrite (nth_overflow a) by assumption; ring|reflexivity]. }
  assert (E2 : sumF g (seq 0 M) == sumF g (seq 0 (S K))). { apply sum_beyond; [lia|]. intros i Hi; unfold g; destruct (Nat.leb_spec i K); [lia|reflexivity]. }
  rewrite <- E1, E2. apply sumF_ext. intros i Hi. apply in_seq in Hi. unfold g. destruct (Nat.leb_spec i K); [reflexivity|lia].
Qed.
Lemma seq_mirror K : Permutation (map (fun i => K - i)%nat (seq 0 (S K))) (seq 0 (S K)).
Proof.
  apply NoDup_Permutation; [|apply seq_NoDup|].
  - assert (G : forall l, NoDup l -> (forall x, In x l -> (x <= K)%nat) -> NoDup (map (fun i => K - i)%nat l)).
    { induction l as [|x l IH]; intros Nd H; cbn [map]; [constructor|]. apply NoDup_cons_iff in Nd as [N1 N2]. constructor; [|apply IH; [assumption|intros y Hy; apply H; now right]]. rewrite in_map_iff. intros (y & E & Hy). apply N1. pose proof (H x (or_introl eq_refl)). pose proof (H y (or_intror Hy)). replace x with y by lia. assumption. }
    apply G; [apply seq_NoDup|]. intros x Hx. apply in_seq in Hx. lia.
  - intros x. rewrite in_map_iff. setoid_rewrite in_seq. split; [intros (y & <- & Hy); lia|]. intros Hx. exists (K - x)%nat. lia.
Qed.
Lemma conv_comm a b K : conv_at a b K == conv_at b a K.
Proof.
  rewrite !conv_full. rewrite <- (sumF_perm _ _ _ (seq_mirror K)), sumF_map'. apply sumF_ext. intros i Hi. apply in_seq in Hi. replace (K - (K - i))%nat with i by lia. ring.
Qed.
(** weights that give the same sums are the same *)
Definition alike (xp yp : list (Q * Q)) : Prop := forall F : Q -> Q, (forall u v, u == v -> F u == F v) -> sumF (fun e => snd e * F (fst e)) xp == sumF (fun e => snd e * F (fst e)) yp.
Lemma alike_prob xp yp n v : alike xp yp -> prob_of_sum xp n v == prob_of_sum yp n v.
Proof.
  intros A. revert v. induction n as [|n IH]; intros v; [reflexivity|]. cbn [prob_of_sum]. rewrite (sumF_ext _ (fun e => snd e * prob_of_sum yp n (v - fst e))) by (intros e _; now rewrite IH).
  apply (A (fun u => prob_of_sum yp n (v - u))). intros u u' E. apply pos_proper. now rewrite E.
Qed.
Lemma alike_weight d d' p p' n v : alike d d' -> alike p p' -> weight_of_sum d p n v == weight_of_sum d' p' n v.
Proof.
  intros Ad Ap. unfold weight_of_sum. rewrite (sumF_ext _ (fun e => snd e * prob_of_sum p' n (v - fst e))) by (intros e _; now rewrite (alike_prob p p' n _ Ap)).
  apply (Ad (fun u => prob_of_sum p' n (v - u))). intros u u' E. apply pos_proper. now rewrite E.
Qed.

Section Conv.
  Variables (w : Q) (c N : nat) (D P : list Q).
  Hypothesis w_pos : 0 < w.
  Hypothesis HN : N = (2 * c + 2)%nat.
  Hypothesis LD : length D = N.
  Hypothesis LP : length P = N.
  Hypothesis P_neg : forall i, (i < c)%nat -> nth i P 0 == 0.
  Definition at_x (i : nat) : Q := inject_Z (Z.of_nat i - Z.of_nat c) * w.
  Definition on_grid (l : list Q) : list (Q * Q) := map (fun i => (at_x i, nth i l 0)) (seq 0 N).
  Definition A (n : nat) (z : Z) : Q := prob_of_sum (on_grid P) n (inject_Z z * w).
  Definition W (n : nat) (z : Z) : Q := weight_of_sum (on_grid D) (on_grid P) n (inject_Z z * w).
  Lemma A_0 z : A 0 z == if (z =? 0)%Z then 1 else 0.
  Proof using All.
    unfold A. cbn [prob_of_sum]. destruct (Qeqb_spec (inject_Z z * w) 0) as [H|H]; destruct (Z.eqb_spec z 0) as [E|E]; try reflexivity; exfalso.
    - apply Qmult_integral in H. destruct H as [H|H]; [|lra]. unfold Qeq, inject_Z in H. cbn in H. lia.
    - apply H. rewrite E. ring.
  Qed.
  Lemma A_S n z : A (S n) z == sumF (fun j => nth j P 0 * A n (z - (Z.of_nat j - Z.of_nat c))) (seq 0 N).
  Proof.
    unfold A. cbn [prob_of_sum]. unfold on_grid at 2. rewrite sumF_map'. apply sumF_ext. intros j _. cbn [fst snd]. rewrite (pos_proper _ n (inject_Z z * w - at_x j) (inject_Z (z - (Z.of_nat j - Z.of_nat c)) * w)); [reflexivity|]. unfold at_x. rewrite (inject_sub z). ring.
  Qed.
  Lemma W_A n z : W n z == sumF (fun i => nth i D 0 * A n (z - (Z.of_nat i - Z.of_nat c))) (seq 0 N).
  Proof.
    unfold W, weight_of_sum. unfold on_grid at 2. rewrite sumF_map'. apply sumF_ext. intros j _. cbn [fst snd]. unfold A. rewrite (pos_proper _ n (inject_Z z * w - at_x j) (inject_Z (z - (Z.of_nat j - Z.of_nat c)) * w)); [reflexivity|]. unfold at_x. rewrite (inject_sub z). ring.
  Qed.
  Lemma W_0 k : (k < N)%nat -> W 0 (Z.of_nat k - Z.of_nat c) == nth k D 0.
  Proof using All.
    intros Hk. rewrite W_A. rewrite (sumF_ext _ (fun i => if (i =? k)%nat then nth k D 0 else 0)).
    - assert (G : forall l, NoDup l -> In k l -> sumF (fun i => if (i =? k)%nat then nth k D 0 else 0) l == nth k D 0).
      { clear Hk. induction l as [|a l IH]; intros Nd I; [destruct I|]. apply NoDup_cons_iff in Nd as [N1 N2]. rewrite sumF_cons. destruct (Nat.eqb_spec a k) as [->|Ne].
        - rewrite (sumF_ext _ (fun _ => 0)); [rewrite sumF_zero by reflexivity; lra|]. intros i Hi. destruct (Nat.eqb_spec i k) as [->|]; [contradiction|reflexivity].
        - destruct I as [I|I]; [contradiction|]. rewrite (IH N2 I). lra. }
      apply G; [apply seq_NoDup|]. apply in_seq. lia.
    - intros i _. rewrite A_0. destruct (Z.eqb_spec (Z.of_nat k - Z.of_nat c - (Z.of_nat i - Z.of_nat c)) 0) as [E|E], (Nat.eqb_spec i k) as [E'|E']; try (exfalso; lia); [subst; ring|ring].
  Qed.
  Lemma A_neg n z : (z < 0)%Z -> A n z == 0.
  Proof using All.
    revert z. induction n as [|n IH]; intros z Hz; [rewrite A_0; destruct (Z.eqb_spec z 0); [lia|reflexivity]|]. rewrite A_S. apply sumF_zero. intros j _. destruct (Nat.lt_ge_cases j c) as [C|C]; [rewrite P_neg by assumption; ring|]. rewrite IH by lia. ring.
  Qed.
  Lemma W_low n z : (z < - Z.of_nat c)%Z -> W n z == 0.
  Proof using All. intros Hz. rewrite W_A. apply sumF_zero. intros i _. rewrite A_neg by lia. ring. Qed.
  Lemma W_S n z : W (S n) z == sumF (fun j => nth j P 0 * W n (z - (Z.of_nat j - Z.of_nat c))) (seq 0 N).
  Proof.
    rewrite W_A. rewrite (sumF_ext _ (fun i => sumF (fun j => nth i D 0 * (nth j P 0 * A n (z - (Z.of_nat i - Z.of_nat c) - (Z.of_nat j - Z.of_nat c)))) (seq 0 N))) by (intros i _; now rewrite A_S, sumF_scale).
    rewrite sumF_swap. apply sumF_ext. intros j _. rewrite W_A, <- sumF_scale. apply sumF_ext. intros i _. replace (z - (Z.of_nat j - Z.of_nat c) - (Z.of_nat i - Z.of_nat c))%Z with (z - (Z.of_nat i - Z.of_nat c) - (Z.of_nat j - Z.of_nat c))%Z by lia. ring.
  Qed.
  Lemma same_step C n : length C = N -> (forall k, (k < N)%nat -> nth k C 0 == W n (Z.of_nat k - Z.of_nat c)) ->
    length (convolve_same C P) = N /\ forall k, (k < N)%nat -> nth k (convolve_same C P) 0 == W (S n) (Z.of_nat k - Z.of_nat c).
  Proof using All.
    intros LC H. split; [unfold convolve_same; rewrite map_length, seq_length; assumption|]. intros k Hk. unfold convolve_same. rewrite (nth_map_d _ _ k 0%nat) by (rewrite seq_length; lia). rewrite seq_nth by lia. cbn [plus]. rewrite LP. replace ((N - 1) / 2)%nat with c by (rewrite HN; replace (2 * c + 2 - 1)%nat with (1 + c * 2)%nat by lia; rewrite Nat.div_add by lia; reflexivity).
    rewrite conv_comm, W_S. unfold conv_at. rewrite LP. apply sumF_ext. intros j Hj. apply in_seq in Hj. destruct (Nat.lt_ge_cases j c) as [Cj|Cj].
    { pose proof (P_neg j Cj) as E0. destruct (j <=? k + c)%nat; rewrite E0; ring. }
    destruct (Nat.leb_spec j (k + c)) as [Hl|Hl].
    - rewrite H by lia. replace (Z.of_nat k - Z.of_nat c - (Z.of_nat j - Z.of_nat c))%Z with (Z.of_nat (k + c - j) - Z.of_nat c)%Z by lia. reflexivity.
    - rewrite W_low by lia. ring.
  Qed.
  Variable p : nat * nat.
  Variable L : nat.
  Hypothesis Hp : (fst p + L + snd p)%nat = N.
  Lemma nth_slice_in (l : list Q) a b k : (a + k < b)%nat -> (b <= length l)%nat -> nth k (slice a b l) 0 = nth (a + k) l 0.
  Proof. intros H1 H2. assert (E : nth_error (slice a b l) k = nth_error l (a + k)). { rewrite nth_error_slice. destruct (Nat.ltb_spec k (b - a)); [reflexivity|lia]. } destruct (nth_error l (a + k)) as [y|] eqn:E2; [rewrite (nth_error_nth _ _ 0 E), (nth_error_nth _ _ 0 E2); reflexivity|]. apply nth_error_None in E2. lia. Qed.
  Lemma convolutions_at ints todo : forall C S i n, n = i -> length C = N -> length S = L -> (forall k, (k < N)%nat -> nth k C 0 == W (i - 1) (Z.of_nat k - Z.of_nat c)) -> (0 < i)%nat ->
    length (convolutions p P ints C S i todo) = L /\ forall k, (k < L)%nat -> nth k (convolutions p P ints C S i todo) 0 == nth k S 0 + sumF (fun i => nth i ints 0 * W i (Z.of_nat (fst p + k) - Z.of_nat c)) (seq i todo).
  Proof using All.
    induction todo as [|todo IH]; intros C S i n En LC LS HC Hi; cbn [convolutions seq].
    - split; [assumption|]. intros k Hk. change (sumF _ []) with 0. lra.
    - destruct (same_step C (i - 1) LC HC) as (L' & H'). replace (Datatypes.S (i - 1)) with i in H' by lia. set (C' := convolve_same C P) in *.
      set (sl := map (fun y => nth i ints 0 * y) (slice (fst p) (length C' - snd p) C')). assert (Lsl : length sl = L) by (subst sl; rewrite map_length, length_slice; lia).
      assert (LS' : length (add_lists S sl) = L) by (rewrite length_add_lists; lia).
      destruct (IH C' (add_lists S sl) (Datatypes.S i) (Datatypes.S i) eq_refl L' LS') as (I1 & I2); [intros k Hk; replace (Datatypes.S i - 1)%nat with i by lia; now apply H'|lia|]. split; [assumption|]. intros k Hk. rewrite I2 by assumption. rewrite nth_add_lists by lia. rewrite sumF_cons. subst sl. rewrite (nth_map_d _ _ k 0) by (rewrite map_length in Lsl; lia). rewrite nth_slice_in by lia. rewrite H' by lia. ring.
  Qed.
End Conv.
Lemma sum_shift (f : nat -> Q) a n : sumF f (seq a n) == sumF (fun i => f (a + i)%nat) (seq 0 n).
Proof. rewrite <- (Nat.add_0_r a) at 1. generalize 0%nat as b. induction n as [|n IH]; intros b; cbn [seq]; [reflexivity|]. rewrite !sumF_cons, <- (Nat.add_succ_r a b), IH. reflexivity. Qed.
Lemma nth_pad p l i : nth i (pad p l) 0 = if (i <? fst p)%nat then 0 else nth (i - fst p) l 0.
Proof.
  unfold pad. destruct (Nat.ltb_spec i (fst p)).
  - rewrite app_nth1 by (rewrite repeat_length; lia). apply nth_repeat.
  - rewrite app_nth2; rewrite repeat_length; [|lia]. destruct (Nat.lt_ge_cases (i - fst p) (length l)); [now rewrite app_nth1|]. rewrite app_nth2 by lia. rewrite nth_repeat. symmetry. now apply nth_overflow.
Qed.
Lemma length_pad p l : length (pad p l) = (fst p + length l + snd p)%nat.
Proof. unfold pad. rewrite !app_length, !repeat_length. lia. Qed.
Lemma alike_pad w c p bins l z : zero_at bins z w -> length l = length bins -> c = (fst p + z)%nat -> alike (combine bins l) (on_grid w c (fst p + length bins + snd p) (pad p l)).
Proof.
  intros (Hz & Hw & Hb) Hl Hc F HF. unfold on_grid. rewrite sumF_map', !seq_app, !sumF_app. cbn [fst snd].
  rewrite (sumF_zero _ (seq 0 (fst p))) by (intros i Hi; apply in_seq in Hi; rewrite nth_pad; destruct (Nat.ltb_spec i (fst p)); [ring|lia]).
  rewrite (sumF_zero _ (seq (0 + (fst p + length bins)) (snd p))) by (intros i Hi; apply in_seq in Hi; rewrite nth_pad; destruct (Nat.ltb_spec i (fst p)); [ring|rewrite nth_overflow by lia; ring]).
  rewrite Qplus_0_l, Qplus_0_r. rewrite sum_shift. assert (E : combine bins l = map (fun i => (nth i bins 0, nth i l 0)) (seq 0 (length bins))).
  { clear -Hl. revert l Hl. induction bins as [|b bins IH]; intros [|x l] H; cbn [length] in H; try lia; [reflexivity|]. cbn [combine length seq map nth]. f_equal. rewrite <- seq_shift, map_map. apply IH. lia. }
  rewrite E, sumF_map'. apply sumF_ext. intros i Hi. apply in_seq in Hi. cbn [fst snd]. rewrite nth_pad. cbn [plus]. destruct (Nat.ltb_spec (fst p + i) (fst p)); [lia|]. replace (fst p + i - fst p)%nat with i by lia. rewrite (HF (nth i bins 0) (at_x w c (fst p + i))); [reflexivity|].
  rewrite (Hb i (nth i bins 0)) by (apply nth_error_nth'; lia). unfold at_x. rewrite Hc. rewrite inject_sub. rewrite !Nat2Z.inj_add, !inject_Z_plus. ring.
Qed.
Lemma count_below bins z w : zero_at bins z w -> length (filter (fun x => Qle_bool x 0) bins) = S z /\ length (filter (fun x => Qltb 0 x) bins) = (length bins - S z)%nat.
Proof.
  intros (Hz & Hw & Hb). assert (G : forall l s, (forall i x, nth_error l i = Some x -> x == (inject_Z (Z.of_nat (s + i)) - inject_Z (Z.of_nat z)) * w) ->
    length (filter (fun x => Qle_bool x 0) l) = Nat.min (length l) (S z - s)%nat /\ length (filter (fun x => Qltb 0 x) l) = (length l - (S z - s))%nat).
  { clear Hb Hz. induction l as [|x l IH]; intros s H; [cbn [filter length]; lia|]. pose proof (H 0%nat x eq_refl) as Hx. rewrite Nat.add_0_r in Hx. destruct (IH (S s)) as (I1 & I2).
    { intros i y Hy. replace (S s + i)%nat with (s + S i)%nat by lia. apply (H (S i) y Hy). }
    cbn [filter length]. destruct (Nat.le_gt_cases s z) as [C|C].
    - assert (x <= 0). { rewrite Hx. assert (0 <= (inject_Z (Z.of_nat z) - inject_Z (Z.of_nat s)) * w); [|lra]. apply Qmult_le_0_compat; [|lra]. assert (inject_Z (Z.of_nat s) <= inject_Z (Z.of_nat z)) by (rewrite <- Zle_Qle; lia). lra. }
      rewrite (proj2 (Qle_bool_iff x 0)) by assumption. destruct (Qltb_spec 0 x); [lra|]. cbn [length]. rewrite I1, I2. lia.
    - assert (0 < x). { rewrite Hx. assert (1 <= inject_Z (Z.of_nat s) - inject_Z (Z.of_nat z)). { rewrite <- inject_sub. change 1 with (inject_Z 1). rewrite <- Zle_Qle. lia. } assert (1 * w <= (inject_Z (Z.of_nat s) - inject_Z (Z.of_nat z)) * w) by (apply Qmult_le_compat_r; lra). lra. }
      destruct (Qleb_spec x 0); [lra|]. destruct (Qltb_spec 0 x); [|lra]. cbn [length]. rewrite I1, I2. lia. }
  destruct (G bins 0%nat) as (G1 & G2); [intros i x Hx; now apply Hb|]. rewrite G1, G2. lia.
Qed.
(** charges of the bins multiples of the width: the spectrum at each bin is the dark spectrum in the proportion of no photons plus, for each number of photoelectrons, the weight of all the ways in which a dark charge and as many charges of one photoelectron add up to the charge of the bin, however wide the distributions *)
Theorem C82_dark gauss bins dark mi fuel scale em mean gain gv z w n l :
  zero_at bins z w -> length dark = length bins -> ~ sumQ dark == 0 -> number_of_gaussians fuel mi scale em mean = Some (n, l) ->
  exists out, dark_convolution gauss bins dark mi fuel bins scale em mean gain gv = Some (Ok (out, n)) /\ length out = length bins /\
  forall k x d, nth_error bins k = Some x -> nth_error dark k = Some d -> exists y, nth_error out k = Some y /\
    y == em * d + sumF (fun i => expected scale em mean i *
      weight_of_sum (combine bins (map (fun d => d / sumQ dark) dark)) (map (fun x => (x, if Qltb x 0 then 0 else gauss x gain gv)) bins) i x) (seq 1 (n - 1)).
Proof.
  intros Z Hd Hs En. destruct (count_below bins z w Z) as (C1 & C2). pose proof Z as (Hz & Hw & Hb). unfold dark_convolution. destruct (Qeqb_spec (sumQ dark) 0) as [K|_]; [contradiction|]. rewrite !Hd, !Nat.eqb_refl. cbn [orb negb]. rewrite En.
  set (p := get_padding bins). assert (Ep : p = (length bins - S z - S z, S z - (length bins - S z))%nat) by (unfold p, get_padding; now rewrite C1, C2).
  set (c := (fst p + z)%nat). set (N := (fst p + length bins + snd p)%nat). assert (HN : N = (2 * c + 2)%nat) by (unfold N, c; rewrite Ep; cbn [fst snd]; lia).
  set (dn := map (fun d => d / sumQ dark) dark). set (pe := suppress_negative bins (map (fun x => gauss x gain gv) bins)).
  assert (Ldn : length dn = length bins) by (unfold dn; now rewrite map_length). assert (Lpe : length pe = length bins) by (unfold pe, suppress_negative; apply length_map2_eq; now rewrite map_length).
  assert (Pneg : forall i, (i < c)%nat -> nth i (pad p pe) 0 == 0).
  { intros i Hi. rewrite nth_pad. destruct (Nat.ltb_spec i (fst p)); [reflexivity|]. unfold pe. rewrite nth_suppress by (rewrite ?map_length; lia). assert (nth (i - fst p) bins 0 < 0). { rewrite (Hb (i - fst p)%nat (nth (i - fst p) bins 0)) by (apply nth_error_nth'; lia). assert (0 < (inject_Z (Z.of_nat z) - inject_Z (Z.of_nat (i - fst p))) * w); [|lra]. apply Qmult_lt_0_compat; [|assumption]. rewrite <- inject_sub. change 0 with (inject_Z 0). rewrite <- Zlt_Qlt. lia. } destruct (Qltb_spec (nth (i - fst p) bins 0) 0); [reflexivity|lra]. }
  assert (LD : length (pad p dn) = N) by (rewrite length_pad; unfold N; lia). assert (LP : length (pad p pe) = N) by (rewrite length_pad; unfold N; lia).
  destruct (convolutions_at w c N (pad p dn) (pad p pe) Hw HN LD LP Pneg p (length bins) eq_refl l (n - 1) (pad p dn) (map (fun _ => 0) dark) 1 1 eq_refl LD) as (L1 & L2).
  { now rewrite map_length. } { intros k Hk. change (1 - 1)%nat with 0%nat. symmetry. now apply W_0. } { lia. }
  set (conv := convolutions p (pad p pe) l (pad p dn) (map (fun _ => 0) dark) 1 (n - 1)) in *.
  exists (add_lists (map (fun d => em * d) dark) conv). split; [reflexivity|]. assert (Lo : length (add_lists (map (fun d => em * d) dark) conv) = length bins) by (rewrite length_add_lists; rewrite map_length; lia). split; [assumption|].
  intros k x d Hx Hdk. assert (Hk : (k < length bins)%nat) by (apply nth_error_Some; congruence). exists (nth k (add_lists (map (fun d => em * d) dark) conv) 0). split; [apply nth_error_nth'; lia|].
  rewrite nth_add_lists by (rewrite ?map_length; lia). rewrite (nth_map_d _ dark k 0) by lia. rewrite (nth_error_nth _ _ 0 Hdk). apply Qplus_inj_l. rewrite L2 by assumption. rewrite (nth_map_d _ dark k 0) by lia. rewrite Qplus_0_l. apply sumF_ext. intros i Hi. apply in_seq in Hi.
  destruct (from_spec mi scale em mean _ _ _ _ _ En) as (_ & H2 & _ & _). rewrite Nat.sub_0_r in H2. cbn [app] in H2. rewrite H2. rewrite (nth_map_d _ _ i 0%nat) by (rewrite seq_length; lia). rewrite seq_nth by lia. cbn [plus]. rewrite factor_expected. f_equiv.
  assert (Epe : map (fun x => (x, if Qltb x 0 then 0 else gauss x gain gv)) bins = combine bins pe).
  { unfold pe, suppress_negative. clear. induction bins as [|b bins IH]; [reflexivity|]. cbn [map map2 combine]. rewrite <- IH. f_equal. f_equal. destruct (Qltb_spec b 0), (Qleb_spec 0 b); try reflexivity; lra. }
  rewrite Epe. unfold W. fold dn. rewrite (alike_weight _ _ _ _ i x (alike_pad w c p bins dn z Z Ldn eq_refl) (alike_pad w c p bins pe z Z Lpe eq_refl)). fold N.
  assert (Ex : inject_Z (Z.of_nat (fst p + k) - Z.of_nat c) * w == x). { rewrite (Hb k x Hx). unfold c. rewrite inject_sub, !Nat2Z.inj_add, !inject_Z_plus. ring. }
  unfold weight_of_sum. apply sumF_ext. intros e _. rewrite (pos_proper _ i (inject_Z (Z.of_nat (fst p + k) - Z.of_nat c) * w - fst e) (x - fst e)); [reflexivity|]. now rewrite Ex.
Qed.
(** with zero between two bins the components are displaced *)
Theorem C82_displaced_refuted : exists gauss bins dark w, 0 < w /\ (forall i x y, nth_error bins i = Some x -> nth_error bins (S i) = Some y -> y == x + w) /\
  exists n l out k x d y, number_of_gaussians 9 (3 # 4) 1 1 1 = Some (n, l) /\ dark_convolution gauss bins dark (3 # 4) 9 bins 1 1 1 1 1 = Some (Ok (out, n)) /\
    nth_error bins k = Some x /\ nth_error dark k = Some d /\ nth_error out k = Some y /\
    ~ y == 1 * d + sumF (fun i => expected 1 1 1 i *
      weight_of_sum (combine bins (map (fun d => d / sumQ dark) dark)) (map (fun x => (x, if Qltb x 0 then 0 else gauss x 1 1)) bins) i x) (seq 1 (n - 1)).
Proof.
  exists (fun x _ _ => if Qeqb x (1 # 2) then 1 else 0), [-1 # 2; 1 # 2; 3 # 2], [1; 0; 0], 1. split; [lra|]. split.
  { intros [|[|[|i]]] x y Hx Hy; cbn in Hx, Hy; try discriminate; injection Hx as <-; injection Hy as <-; reflexivity. }
  do 2 eexists. eexists. exists 1%nat, (1 # 2), 0. eexists. repeat split; try (vm_compute; reflexivity). intros K. vm_compute in K. discriminate.
Qed.
(** the dark spectrum as pedestal *)
Theorem C82_pedestal gauss dark pm pv mi fuel xs scale em mean gain gv out n : length dark = length xs ->
  scaled_dark_pedestal gauss dark pm pv mi fuel xs scale em mean gain gv = Some (Ok (out, n)) ->
  (forall k, (k < n)%nat -> mi < expected scale em mean k) /\ expected scale em mean n <= mi /\ length out = length xs /\
  forall j x d, nth_error xs j = Some x -> nth_error dark j = Some d -> exists y, nth_error out j = Some y /\
    y == em * d + sumF (fun i => expected scale em mean i * (if Qltb x 0 then 0 else gauss x (pm + inject_Z (Z.of_nat i) * gain) (pv + inject_Z (Z.of_nat i) * gv))) (seq 1 (n - 1)).
Proof.
  intros Ld H. unfold scaled_dark_pedestal in H. destruct (poisson_scaled_gaussians gauss 1 None (Some mi) fuel xs scale em mean pm pv gain gv) as [[[s m]|e]|] eqn:E; try discriminate. injection H as <- <-. destruct (C82_sum _ _ _ _ _ _ _ _ _ _ _ _ _ _ _ E) as ((H1 & H2) & H3 & H4).
  assert (Lm : length (map (fun d => em * d) dark) = length s) by (rewrite map_length; congruence). split; [assumption|]. split; [assumption|]. split; [rewrite length_add_lists; [rewrite map_length; assumption|assumption]|].
  intros j x d Hx Hd. destruct (H4 j x Hx) as (y & Hy & Ey). assert (Hj : (j < length xs)%nat) by (apply nth_error_Some; congruence). exists (nth j (add_lists (map (fun d => em * d) dark) s) 0). split; [apply nth_error_nth'; rewrite length_add_lists; rewrite ?map_length; congruence|].
  rewrite nth_add_lists by (rewrite ?map_length; lia). rewrite (nth_map_d _ dark j 0), (nth_error_nth _ _ 0 Hd), (nth_error_nth _ _ 0 Hy), Ey by lia. apply Qplus_inj_l. apply sumF_ext. intros i Hi. apply in_seq in Hi. replace (0 <? i)%nat with true by (symmetry; apply Nat.ltb_lt; lia). reflexivity.
Qed.
(** either the number of gaussians or their minimum must be given, not both *)
Theorem C82_arguments gauss first ng mi fuel xs scale em mean pm pv gain gv :
  poisson_scaled_gaussians gauss first ng mi fuel xs scale em mean pm pv gain gv = Some (Err ValueError) <-> ((ng = None /\ mi = None) \/ (ng <> None /\ mi <> None)).
Proof.
  unfold poisson_scaled_gaussians. destruct ng as [m|], mi as [b|].
  - split; [intros _; right; split; discriminate|reflexivity].
  - split; [discriminate|]. intros [[K _]|[_ K]]; [discriminate|contradiction].
  - destruct (number_of_gaussians fuel b scale em mean) as [[n l]|]; (split; [discriminate|]); intros [[_ K]|[K _]]; solve [discriminate|contradiction].
  - split; [intros _; left; split; reflexivity|reflexivity].
Qed.
(** the seeds of a fit with a measured dark spectrum are within their bounds *)
Theorem C82_seeds ped norm mu gain sigma : 0 <= norm -> mu <= 10000 -> 0 <= gain -> gain <= 10000 -> 1 # 1000 <= sigma -> sigma <= 10000 ->
  let '(seeds, (lo, hi)) := seeds_and_bounds false ped norm mu gain sigma in length seeds = 4%nat /\ all_within seeds lo hi.
Proof.
  intros. unfold seeds_and_bounds. cbn [app]. split; [reflexivity|]. split; [reflexivity|]. split; [reflexivity|]. intros [|[|[|[|i]]]] Hi; cbn [length] in Hi; try lia; cbn [nth]; unfold within; [split; [assumption|exact I]| |split; assumption|split; assumption]. destruct (Qltb_spec mu 0); split; lra.
Qed.
(** but with a gaussian pedestal the bounds of its mean and width are mixed up, so a pedestal of mean 10 +- 0.01 and width 1 +- 0.01 has its mean out of its bounds, and the lower bound of the width is above the upper one *)
Theorem C82_bounds_refuted : exists mean sigma mean_err sigma_err norm mu gain gain_sigma, 0 < mean_err /\ 0 < sigma_err /\ (1 # 1000) < sigma /\ 0 <= norm /\ 0 <= mu <= 10000 /\ 0 <= gain <= 10000 /\ 1 # 1000 <= gain_sigma <= 10000 /\
  let '(seeds, (lo, hi)) := seeds_and_bounds true (pedestal_values mean sigma 10000 mean_err sigma_err) norm mu gain gain_sigma in
  ~ all_within seeds lo hi /\ nth 2 seeds 0 = mean /\ (match nth 2 hi None with Some h => h < mean | None => False end) /\ nth 3 seeds 0 = sigma /\ (match nth 3 hi None with Some h => h < nth 3 lo 0 | None => False end).
Proof.
  exists 10, 1, (1 # 100), (1 # 100), 100, 1, 20, 2. repeat split; try lra. intros (_ & _ & K). specialize (K 2%nat ltac:(cbn; lia)). destruct K as [_ K]. vm_compute in K. now apply K.
Qed.

(** ---- examples ---- *)
Definition some_gauss (x mu v : Q) : Q := if Qeqb x mu then 1 # 2 else 1 # 8.
Example C82_example_number : exists l, number_of_gaussians 9 (1 # 10) 10 (1 # 3) 1 = Some (5%nat, l) /\ length l = 5%nat.
Proof. eexists. split; vm_compute; reflexivity. Qed.
Example C82_example_dark : zero_at [-1; 0; 1; 2] 1 1 /\ exists n l out, number_of_gaussians 9 1 10 (1 # 3) 1 = Some (n, l) /\
  dark_convolution some_gauss [-1; 0; 1; 2] [1; 2; 1; 0] 1 9 [-1; 0; 1; 2] 10 (1 # 3) 1 1 1 = Some (Ok (out, n)) /\ length out = 4%nat.
Proof.
  split.
  - split; [cbn; lia|]. split; [lra|]. intros [|[|[|[|i]]]] x Hx; cbn in Hx; try (injection Hx as <-; reflexivity); destruct i; discriminate.
  - do 3 eexists. repeat split; vm_compute; reflexivity.
Qed.
Example C82_example_pedestal : exists out n, scaled_dark_pedestal some_gauss [1; 2; 1; 0] 0 1 1 9 [-1; 0; 1; 2] 10 (1 # 3) 1 1 1 = Some (Ok (out, n)) /\ (1 < n)%nat.
Proof. do 2 eexists. split; [vm_compute; reflexivity|lia]. Qed.

Print Assumptions C82_number.
Print Assumptions C82_left_out.
Print Assumptions C82_endless.
Print Assumptions C82_sum.
Print Assumptions C82_dark.
Print Assumptions C82_pedestal.
Print Assumptions C82_seeds.
Print Assumptions C82_bright_refuted.
Print Assumptions C82_displaced_refuted.
Print Assumptions C82_arguments.
Print Assumptions C82_bounds_refuted.
